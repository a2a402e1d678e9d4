(** C29-C33: the in-memory directory. *)
From Verif Require Import Base BaseFacts Utf8Model DnModel DnSpec EntryModel EntrySpec LdapSpec MatchModel InmemModel InmemSpec InmemProofs InmemHist InmemMove PropsEntry.

(** ** Searching *)
(** C29. In any tree, from any entry, with any filter that can be evaluated on the entries in scope. *)
Theorem C29_search_each_once : forall (lower : str -> str) (h : heap) (L : list ref) (depth : nat) (r : ref) (f : filter) (sc : scope),
  tree h L -> In r L -> shallow h L r depth -> (forall c, in_scope h sc r c -> can_match lower h f c) ->
  exists l, search lower depth h r f sc = Ok l /\ NoDup l /\
    forall c, In c l <-> in_scope h sc r c /\ exists e, entry_at h c e /\ matches lower e f = Ok true.
Proof. intros lower h L depth r f sc T. exact (search_exact lower h L T depth r f sc). Qed.
Print Assumptions C29_search_each_once.
(** Whatever the filter: a search that succeeds returns only entries in scope that match, once each. *)
Theorem C29_search_sound : forall (lower : str -> str) (h : heap) (L : list ref) (depth : nat) (r : ref) (f : filter) (sc : scope) (l : list ref),
  tree h L -> In r L -> search lower depth h r f sc = Ok l ->
  NoDup l /\ forall c, In c l -> in_scope h sc r c /\ exists e, entry_at h c e /\ matches lower e f = Ok true.
Proof. intros lower h L depth r f sc l T. exact (search_sound lower h L T depth r f sc l). Qed.
Print Assumptions C29_search_sound.
(** Every heap made by a history of adds and deletes is such a tree. *)
Theorem C29_trees_from_histories : forall (lower : str -> str) (C : rdn -> Prop) (rt : dn) (a : attrs) (depth : nat) (xs : list hop),
  consistent lower C -> Forall (hop_ok C depth) xs ->
  exists L, tree (fst (do_hops lower depth xs (start lower rt a))) L.
Proof. intros lower C rt a depth xs CC F. destruct (history_tree lower C CC rt a depth xs F) as (L & T & _). eauto. Qed.
Print Assumptions C29_trees_from_histories.

Definition rd1 (t v : string) : rdn := [mkAtv (S_ t) (S_ v)].
Definition x_root : dn := [rd1 "dc" "com"].
Definition x_attrs (s : string) : attrs := [(bv "objectClass", [bv "top"]); (bv "cn", [bv s])].
Definition x_add (p : dn) (t v : string) : hop := HAdd p (rd1 t v) [(sv t, [sv v]); (sv "objectClass", [sv "top"])].
(** dc=com with ou=a (holding cn=x and cn=y) and ou=b. *)
Definition x_hist : list hop :=
  [x_add x_root "ou" "a"; x_add x_root "ou" "b"; x_add (rd1 "ou" "A" :: x_root) "cn" "x"; x_add (rd1 "ou" "a" :: x_root) "cn" "y"].
Definition x_depth : nat := 50%nat.
Definition x_heap : heap := fst (do_hops ascii_lower x_depth x_hist (start ascii_lower x_root (x_attrs "root"))).
Example C29_case : Forall (hop_ok (canonical ascii_lower) x_depth) x_hist /\
  search ascii_lower x_depth x_heap 0%nat (FPresent (B "objectClass")) ScSub = Ok [0%nat; 2%nat; 1%nat; 4%nat; 3%nat] /\
  search ascii_lower x_depth x_heap 0%nat (FNot (FEq (B "ou") (B "a"))) ScOne = Ok [2%nat] /\
  search ascii_lower x_depth x_heap 1%nat (FEq (B "CN") (B "Y")) ScSub = Ok [4%nat].
Proof.
  split; [|split; [vm_compute; reflexivity|split; [vm_compute; reflexivity|vm_compute; reflexivity]]].
  assert (A : forall t v, (t, v) = ("ou", "a") \/ (t, v) = ("ou", "b") \/ (t, v) = ("cn", "x") \/ (t, v) = ("cn", "y") -> canonical ascii_lower (rd1 t v)).
  { intros t v [[= -> ->]|[[= -> ->]|[[= -> ->]|[= -> ->]]]]; ((split; [|split; [discriminate|]]); (apply Forall_cons; [|apply Forall_nil]); cbv [a_type a_value];
    [split; [|split]; [cbn; repeat (apply Forall_cons; [discriminate|]); apply Forall_nil|cbn; intuition discriminate|cbn; repeat (apply Forall_cons; [discriminate|]); apply Forall_nil]|split; reflexivity]). }
  repeat (apply Forall_cons; [split; [apply A; tauto|cbn; unfold x_depth; lia]|]). apply Forall_nil.
Qed.

(** C30. A successful base or one-level search has all matching entries, and matching failed on none. *)
Theorem C30_successful_search_complete_partial : forall (lower : str -> str) (h : heap) (L : list ref) (depth : nat) (r : ref)
    (f : filter) (sc : scope) (l : list ref),
  tree h L -> In r L -> sc <> ScSub -> search lower depth h r f sc = Ok l ->
  forall c, in_scope h sc r c -> can_match lower h f c /\ ((exists e, entry_at h c e /\ matches lower e f = Ok true) -> In c l).
Proof. intros lower h L depth r f sc l T. exact (search_complete lower h L T depth r f sc l). Qed.
Print Assumptions C30_successful_search_complete_partial.
(** A subtree search is not like that: the error of one entry below the base ends the walk silently,
    and the entries after it are missing from a successful result. *)
Definition c30_bad : attrs := [(sv "cn", [sv "x"]); (sv "num", [sv "7"])].
Definition c30_good : attrs := [(sv "cn", [sv "y"]); (bv "num", [bv "7"])].
Definition c30_heap : heap := fst (do_hops ascii_lower x_depth
  [HAdd x_root (rd1 "cn" "y") c30_good; HAdd x_root (rd1 "cn" "x") c30_bad] (start ascii_lower x_root [])).
Theorem C30_subtree_refuted : exists (h : heap) (r : ref) (f : filter) (l : list ref) (c : ref) (e : entry),
  search ascii_lower x_depth h r f ScSub = Ok l /\ in_scope h ScSub r c /\ entry_at h c e /\
  matches ascii_lower e f = Ok true /\ ~ In c l.
Proof.
  exists c30_heap, 0%nat, (FGe (B "num") (B "5")), [], 1%nat, (new_entry ascii_lower [rd1 "cn" "y"; rd1 "dc" "com"] c30_good).
  split; [vm_compute; reflexivity|]. split.
  { eapply below_step; [|apply below_refl]. vm_compute. auto. }
  split; [eexists; split; vm_compute; reflexivity|]. split; [vm_compute; reflexivity|intros []].
Qed.
Print Assumptions C30_subtree_refuted.
(** The same happens to entries deeper than Python's recursion limit. *)
Theorem C30_deep_tree_refuted : exists (h : heap) (r : ref) (f : filter) (l : list ref) (c : ref) (e : entry) (depth : nat),
  search ascii_lower depth h r f ScSub = Ok l /\ in_scope h ScSub r c /\ entry_at h c e /\
  matches ascii_lower e f = Ok true /\ ~ In c l.
Proof.
  exists x_heap, 0%nat, (FEq (B "cn") (B "x")), [], 3%nat, (new_entry ascii_lower [rd1 "cn" "x"; rd1 "ou" "a"; rd1 "dc" "com"] [(sv "cn", [sv "x"]); (sv "objectClass", [sv "top"])]), 2%nat.
  split; [vm_compute; reflexivity|]. split.
  { apply (below_step _ 0%nat 1%nat); [vm_compute; auto|]. apply (below_step _ 1%nat 3%nat); [vm_compute; auto|]. apply below_refl. }
  split; [eexists; split; vm_compute; reflexivity|]. split; [vm_compute; reflexivity|]. intros [].
Qed.
Print Assumptions C30_deep_tree_refuted.
Example C30_case : search ascii_lower x_depth c30_heap 0%nat (FGe (B "num") (B "5")) ScOne = Err EType /\
  search ascii_lower x_depth c30_heap 1%nat (FGe (B "num") (B "5")) ScBase = Ok [1%nat].
Proof. split; vm_compute; reflexivity. Qed.

(** ** Histories *)
(** C31. For every history whose RDNs are spelled consistently, all outcomes are those of the map
    from DNs to attributes, and so is every lookup afterwards. *)
Theorem C31_map_of_entries_partial : forall (lower : str -> str) (C : rdn -> Prop) (rt : dn) (a : attrs) (depth : nat) (xs : list hop),
  consistent lower C -> Forall (hop_ok C depth) xs ->
  let (h, os) := do_hops lower depth xs (start lower rt a) in
  let (M, os') := spec_hops lower rt xs [(rt, a)] in
  os = os' /\
  forall d, (length d < depth)%nat ->
    match find (fun x => dn_eqb lower (fst x) d) M with
    | Some (d', a') => exists r e, lookup lower depth h 0%nat d = Ok r /\ entry_at h r e /\ e_dn e = d' /\ same_dn lower d' d /\
        (forall k, has lower e k <-> exists k' vs, In (k', vs) a' /\ lowv lower k' = lowv lower k) /\
        (forall k v, holds lower e k v <-> exists k' vs, In (k', vs) a' /\ lowv lower k' = lowv lower k /\ In v vs)
    | None => lookup lower depth h 0%nat d = Err (ELdap 32)
    end.
Proof.
  intros lower C rt a depth xs CC F. pose proof (history lower C CC rt a depth xs F) as H.
  destruct (do_hops lower depth xs (start lower rt a)) as (h & os), (spec_hops lower rt xs [(rt, a)]) as (M & os').
  destruct H as (-> & H). split; [reflexivity|]. intros d D. specialize (H d D). unfold at_dn in H.
  destruct (find (fun x => dn_eqb lower (fst x) d) M) as [(d' & a')|]; [|exact H].
  destruct H as (r & E & N & S). exists r, (new_entry lower d' a'). split; [exact E|]. split; [exact N|]. split; [reflexivity|]. split; [exact S|].
  split; [intros k; apply (proj1 (new_entry_spec lower d' a' k (PStr [])))|intros k v; apply (proj2 (new_entry_spec lower d' a' k v))].
Qed.
Print Assumptions C31_map_of_entries_partial.
(** Lower-case RDNs are spelled consistently, so C31 applies to all of them. *)
Theorem C31_lower_case_rdns : forall lower, consistent lower (canonical lower).
Proof. exact canonical_consistent. Qed.
Print Assumptions C31_lower_case_rdns.
(** Without that, an entry added and deleted is still found. *)
Theorem C31_spelling_refuted : exists (xs : list hop) (d : dn) (h : heap) (r : ref),
  do_hops ascii_lower x_depth xs (start ascii_lower x_root []) = (h, [Ok tt; Ok tt; Ok tt]) /\
  last xs (HDelete []) = HDelete d /\ lookup ascii_lower x_depth h 0%nat d = Ok r.
Proof.
  exists [x_add x_root "cn" "a"; x_add x_root "cn" "A"; HDelete (rd1 "cn" "a" :: x_root)]. eexists _, _, 2%nat.
  split; [vm_compute; reflexivity|]. split; [reflexivity|]. vm_compute. reflexivity.
Qed.
Print Assumptions C31_spelling_refuted.
Example C31_case : snd (do_hops ascii_lower x_depth
    (x_hist ++ [x_add x_root "ou" "b"; HDelete (rd1 "OU" "a" :: x_root); HDelete (rd1 "cn" "q" :: x_root);
                HDelete (rd1 "CN" "X" :: rd1 "ou" "a" :: x_root); HDelete x_root; x_add (rd1 "ou" "a" :: x_root) "cn" "x"])
    (start ascii_lower x_root (x_attrs "root"))) =
  [Ok tt; Ok tt; Ok tt; Ok tt; Err (ELdap 68); Err (ELdap 66); Err (ELdap 32); Ok tt; Err (ELdap 64); Ok tt].
Proof. vm_compute. reflexivity. Qed.

(** C33. The same histories leave entries with pairwise different DNs. *)
Theorem C33_no_equal_dns_partial : forall (lower : str -> str) (C : rdn -> Prop) (rt : dn) (a : attrs) (depth : nat) (xs : list hop),
  consistent lower C -> Forall (hop_ok C depth) xs ->
  exists L, tree (fst (do_hops lower depth xs (start lower rt a))) L /\
  forall r s e1 e2, In r L -> In s L -> entry_at (fst (do_hops lower depth xs (start lower rt a))) r e1 ->
    entry_at (fst (do_hops lower depth xs (start lower rt a))) s e2 -> r <> s -> dn_eqb lower (e_dn e1) (e_dn e2) = false.
Proof. intros lower C rt a depth xs CC F. exact (history_tree lower C CC rt a depth xs F). Qed.
Print Assumptions C33_no_equal_dns_partial.
(** In general two entries with equal DNs can be added. *)
Theorem C33_case_refuted : exists (xs : list hop) (h : heap) (r s : ref) (e1 e2 : entry),
  do_hops ascii_lower x_depth xs (start ascii_lower x_root []) = (h, [Ok tt; Ok tt]) /\
  In r (kids h 0%nat) /\ In s (kids h 0%nat) /\ r <> s /\ entry_at h r e1 /\ entry_at h s e2 /\ dn_eqb ascii_lower (e_dn e1) (e_dn e2) = true.
Proof.
  exists [x_add x_root "cn" "a"; x_add x_root "cn" "A"]. eexists _, 1%nat, 2%nat, _, _.
  split; [vm_compute; reflexivity|]. split; [vm_compute; auto|]. split; [vm_compute; auto|]. split; [discriminate|].
  split; [eexists; split; [cbn; reflexivity|reflexivity]|]. split; [eexists; split; [cbn; reflexivity|reflexivity]|]. vm_compute. reflexivity.
Qed.
Print Assumptions C33_case_refuted.
Example C33_case : map (fun n => n_dn n) x_heap =
  [x_root; rd1 "ou" "a" :: x_root; rd1 "ou" "b" :: x_root; rd1 "cn" "x" :: rd1 "ou" "a" :: x_root; rd1 "cn" "y" :: rd1 "ou" "a" :: x_root].
Proof. vm_compute. reflexivity. Qed.

(** ** Moving *)
(** C32. After any such history, a successful move of a leaf to a DN that is free: lookups find it
    under the new DN and not under the old one, and all others are as before. *)
Theorem C32_move_leaf_partial : forall (lower : str -> str) (C : rdn -> Prop) (rt : dn) (a : attrs) (depth : nat) (xs : list hop)
    (h' : heap) (old parent : dn) (nrd : rdn) (c np : ref),
  consistent lower C -> Forall (hop_ok C depth) xs ->
  let h := fst (do_hops lower depth xs (start lower rt a)) in
  (length old < depth)%nat -> (length (nrd :: parent) < depth)%nat ->
  lookup lower depth h 0%nat old = Ok c -> c <> 0%nat -> kids h c = [] ->
  lookup lower depth h 0%nat parent = Ok np -> (exists e, entry_at h np e /\ e_dn e = parent) -> np <> c -> C nrd ->
  (lookup lower depth h 0%nat (nrd :: parent) = Err (ELdap 32) \/ lookup lower depth h 0%nat (nrd :: parent) = Ok c) ->
  move lower depth h c (nrd :: parent) = (h', Ok tt) ->
  (exists L, tree h L /\ tree h' L) /\
  forall d, (length d < depth)%nat ->
    lookup lower depth h' 0%nat d =
    if dn_eqb lower (nrd :: parent) d then Ok c
    else if dn_eqb lower old d then Err (ELdap 32) else lookup lower depth h 0%nat d.
Proof. intros lower C rt a depth xs h' old parent nrd c np CC. exact (move_history lower C CC rt a depth xs h' old parent nrd c np). Qed.
Print Assumptions C32_move_leaf_partial.
Definition c32_new : dn := rd1 "cn" "z" :: rd1 "ou" "b" :: x_root.
Example C32_case : exists h',
  lookup ascii_lower x_depth x_heap 0%nat (rd1 "cn" "x" :: rd1 "ou" "a" :: x_root) = Ok 3%nat /\ kids x_heap 3%nat = [] /\
  lookup ascii_lower x_depth x_heap 0%nat (rd1 "ou" "b" :: x_root) = Ok 2%nat /\ lookup ascii_lower x_depth x_heap 0%nat c32_new = Err (ELdap 32) /\
  move ascii_lower x_depth x_heap 3%nat c32_new = (h', Ok tt) /\ lookup ascii_lower x_depth h' 0%nat c32_new = Ok 3%nat.
Proof. eexists. split; [vm_compute; reflexivity|]. split; [vm_compute; reflexivity|]. split; [vm_compute; reflexivity|]. split; [vm_compute; reflexivity|]. split; vm_compute; reflexivity. Qed.

(** The entry cannot be deleted after a rename: the parent still has it under its old RDN. *)
Theorem C32_rename_delete_refuted : exists (h h' : heap) (c : ref) (d : dn),
  h = x_heap /\ move ascii_lower x_depth h c d = (h', Ok tt) /\ lookup ascii_lower x_depth h' 0%nat d = Ok c /\
  kids h' c = [] /\ delete h' c = Err (ELdap 32).
Proof.
  exists x_heap. eexists _, 3%nat, (rd1 "cn" "z" :: rd1 "ou" "a" :: x_root). split; [reflexivity|]. split; [vm_compute; reflexivity|].
  split; [vm_compute; reflexivity|]. split; vm_compute; reflexivity.
Qed.
Print Assumptions C32_rename_delete_refuted.
(** After a move to another parent, deleting the entry can delete another one in its place. *)
Theorem C32_move_delete_refuted : exists (h1 h2 h3 : heap) (c q : ref) (old new : dn),
  move ascii_lower x_depth x_heap c new = (h1, Ok tt) /\
  do_hop ascii_lower x_depth (x_add (rd1 "ou" "a" :: x_root) "cn" "x") h1 = (h2, Ok tt) /\
  lookup ascii_lower x_depth h2 0%nat old = Ok q /\ lookup ascii_lower x_depth h2 0%nat new = Ok c /\
  do_hop ascii_lower x_depth (HDelete new) h2 = (h3, Ok tt) /\
  lookup ascii_lower x_depth h3 0%nat new = Ok c /\ lookup ascii_lower x_depth h3 0%nat old = Err (ELdap 32).
Proof.
  eexists _, _, _, 3%nat, 5%nat, (rd1 "cn" "x" :: rd1 "ou" "a" :: x_root), (rd1 "cn" "x" :: rd1 "ou" "b" :: x_root).
  split; [vm_compute; reflexivity|]. split; [vm_compute; reflexivity|]. split; [vm_compute; reflexivity|]. split; [vm_compute; reflexivity|].
  split; [vm_compute; reflexivity|]. split; vm_compute; reflexivity.
Qed.
Print Assumptions C32_move_delete_refuted.
(** A move onto an entry that exists succeeds, and that entry is lost. *)
Definition c32_heap : heap := fst (do_hop ascii_lower x_depth (x_add (rd1 "ou" "b" :: x_root) "cn" "x") x_heap).
Theorem C32_overwrite_refuted : exists (h' : heap) (c q : ref) (d : dn),
  lookup ascii_lower x_depth c32_heap 0%nat d = Ok q /\ q <> c /\
  move ascii_lower x_depth c32_heap c d = (h', Ok tt) /\ lookup ascii_lower x_depth h' 0%nat d = Ok c /\
  forall r, In r [0%nat; 1%nat; 2%nat; 3%nat; 4%nat; 5%nat] -> ~ In q (kids h' r).
Proof.
  eexists _, 3%nat, 5%nat, (rd1 "cn" "x" :: rd1 "ou" "b" :: x_root). split; [vm_compute; reflexivity|]. split; [discriminate|].
  split; [vm_compute; reflexivity|]. split; [vm_compute; reflexivity|].
  intros r. cbn [In]. intros [<-|[<-|[<-|[<-|[<-|[<-|[]]]]]]]; vm_compute; intuition discriminate.
Qed.
Print Assumptions C32_overwrite_refuted.
(** The descendants of a moved entry are found neither under the new nor under the old DN. *)
Theorem C32_descendants_refuted : exists (h' : heap) (c k : ref) (old new : dn) (rd : rdn),
  lookup ascii_lower x_depth x_heap 0%nat old = Ok c /\ lookup ascii_lower x_depth x_heap 0%nat (rd :: old) = Ok k /\
  move ascii_lower x_depth x_heap c new = (h', Ok tt) /\ lookup ascii_lower x_depth h' 0%nat new = Ok c /\ In k (kids h' c) /\
  lookup ascii_lower x_depth h' 0%nat (rd :: new) = Err (ELdap 32) /\ lookup ascii_lower x_depth h' 0%nat (rd :: old) = Err (ELdap 32).
Proof.
  eexists _, 1%nat, 3%nat, (rd1 "ou" "a" :: x_root), (rd1 "ou" "c" :: x_root), (rd1 "cn" "x"). split; [vm_compute; reflexivity|]. split; [vm_compute; reflexivity|].
  split; [vm_compute; reflexivity|]. split; [vm_compute; reflexivity|]. split; [vm_compute; auto|]. split; vm_compute; reflexivity.
Qed.
Print Assumptions C32_descendants_refuted.
(** A move that fails can already have moved the entry: here the entry lacks the RDN's attribute, the
    move raises KeyError, and the entry is in the other parent's dict while its DN is the old one. *)
Theorem C32_failed_move_refuted : exists (h h' : heap) (c : ref) (old new : dn),
  lookup ascii_lower x_depth h 0%nat old = Ok c /\ move ascii_lower x_depth h c new = (h', Err EKey) /\
  lookup ascii_lower x_depth h' 0%nat old = Err (ELdap 32) /\ lookup ascii_lower x_depth h' 0%nat new = Err (ELdap 32).
Proof.
  exists (fst (do_hop ascii_lower x_depth (HAdd (rd1 "ou" "a" :: x_root) (rd1 "cn" "n") []) x_heap)).
  eexists _, 5%nat, (rd1 "cn" "n" :: rd1 "ou" "a" :: x_root), (rd1 "cn" "n" :: rd1 "ou" "b" :: x_root).
  split; [vm_compute; reflexivity|]. split; [vm_compute; reflexivity|]. split; vm_compute; reflexivity.
Qed.
Print Assumptions C32_failed_move_refuted.
