(** C23: the difference between two directory trees. *)
From Verif Require Import Base BaseFacts Utf8Model Utf8Proofs DnModel DnSpec DnProofs EntryModel EntrySpec EntryProofs LdapSpec MatchModel InmemModel InmemSpec InmemProofs InmemHist InmemMove SyntaxSpec TreeDiffModel TreeDiffSpec TreeDiffProofs TreeDiffMain PropsEntry PropsInmem.

Lemma canonical_same lower a b : canonical lower a -> canonical lower b -> rdn_eqb lower a b = true -> a = b.
Proof.
  intros (_ & _ & La) (_ & _ & Lb) E. apply rdn_eqb_spec in E. revert La Lb. induction E as [|x y a b (T & V) E IH]; intros La Lb; [reflexivity|].
  inversion La as [|? ? (L1 & L2) La']; inversion Lb as [|? ? (L3 & L4) Lb']; subst. f_equal; [|auto]. destruct x, y; cbn in *; congruence.
Qed.
Lemma like_false lower h r h' r' : same_entries (like lower False) h r h' r' -> same_entries (alike lower) h r h' r'.
Proof.
  intros (P & Q). split.
  - intros e E. destruct (P e E) as (e' & E' & L & _). eauto.
  - intros e E. destruct (Q e E) as (e' & E' & L & _). eauto.
Qed.
Lemma like_true lower h r h' r' : same_entries (like lower True) h r h' r' -> same_entries (equal lower) h r h' r'.
Proof.
  intros (P & Q). split.
  - intros e E. destruct (P e E) as (e' & E' & L & K). exists e'. split; [exact E'|]. split; [exact L|exact (K I)].
  - intros e E. destruct (Q e E) as (e' & E' & L & K). exists e'. split; [exact E'|]. split; [exact L|exact (K I)].
Qed.

(** The tree that a history of adds and deletes leaves. *)
Notation tree_of lower depth xs rt a := (fst (do_hops lower depth xs (start lower rt a))).
Lemma tree_inv lower rt a depth xs : Forall (hop_ok (canonical lower) depth) xs -> exists L, inv (canonical lower) rt (tree_of lower depth xs rt a) L.
Proof.
  intros F. pose proof (hops_sim lower (canonical lower) (canonical_consistent lower) rt depth xs _ _ _ (start_sim lower (canonical lower) rt a) F) as H.
  destruct (do_hops lower depth xs (start lower rt a)) as (h & os), (spec_hops lower rt xs [(rt, a)]) as (M & os'). destruct H as (_ & L & (J & _)). exists L. exact J.
Qed.

(** C23. For every two trees made by histories of adds and deletes with lower-case RDNs, every entry
    [a] of the one and [b] of the other with the same DN: the difference between them is found, every
    operation of it succeeds in the order given, and afterwards there is an entry with the DN of [a]
    below which there are exactly the entries below [b], each with the values it has there; entries
    not below [a] stay as they were. Missing: RDNs spelled in upper case, attributes spelled or typed
    differently in the two trees, entries that moved, and trees deeper than the recursion limit. *)
Theorem C23_values_partial : forall (lower : str -> str) (oc_first : bool) (hash_pair : str * str -> Z) (hash_tuple : list Z -> Z)
    (depth : nat) (xs ys : list hop) (rtA rtB : dn) (atA atB : attrs) (a b : ref) (ea eb : entry),
  let hA := tree_of lower depth xs rtA atA in let hB := tree_of lower depth ys rtB atB in
  (forall s, ascii s -> lower s = ascii_lower s) ->
  Forall (hop_ok (canonical lower) depth) xs -> Forall (hop_ok (canonical lower) depth) ys ->
  (forall e, entry_below hA 0%nat e -> (length (e_dn e) < depth)%nat) ->
  (forall f, entry_below hB 0%nat f -> (length (e_dn f) < depth)%nat /\ copyable lower f) ->
  (forall e f, entry_below hA 0%nat e -> entry_below hB 0%nat f -> same_dn lower (e_dn e) (e_dn f) -> comparable lower e f) ->
  below hA 0%nat a -> below hB 0%nat b -> entry_at hA a ea -> entry_at hB b eb -> same_dn lower (e_dn ea) (e_dn eb) ->
  exists ops h' os a', diff_tree lower hash_pair hash_tuple depth depth hA a hB b = Ok ops /\
    patch_ops lower oc_first depth 0%nat ops hA = (h', os) /\ Forall (eq (Ok tt)) os /\
    below h' 0%nat a' /\ (exists e', entry_at h' a' e' /\ same_dn lower (e_dn e') (e_dn ea)) /\
    same_entries (alike lower) h' a' hB b /\
    forall e, ~ in_tree lower (e_dn ea) (e_dn e) -> (entry_below h' 0%nat e <-> entry_below hA 0%nat e).
Proof.
  intros lower oc hp ht depth xs ys rtA rtB atA atB a b ea eb hA hB LS FA FB SA SB HAB Ba Bb Ea Eb S.
  destruct (tree_inv lower rtA atA depth xs FA) as (LA & IA). destruct (tree_inv lower rtB atB depth ys FB) as (LB & IB).
  destruct (tree_diff lower oc hp ht depth LS (canonical lower) (canonical_consistent lower) (canonical_same lower) False rtA rtB hA hB LA LB IA IB SA
    (fun f E => proj1 (SB f E)) HAB (fun f E => proj2 (SB f E)) (fun k => match k with end) (fun k => match k with end) a b ea eb Ba Bb Ea Eb S)
    as (ops & h' & os & a' & L' & D & P & F & _ & B' & E' & X & O).
  exists ops, h', os, a'. repeat (split; [assumption|]). split; [exact (like_false _ _ _ _ _ X)|exact O].
Qed.
Print Assumptions C23_values_partial.
(** When moreover no attribute disappears, every attribute of the second tree has a value and
    objectClass is spelled so, the entries compare equal. *)
Theorem C23_equal_partial : forall (lower : str -> str) (oc_first : bool) (hash_pair : str * str -> Z) (hash_tuple : list Z -> Z)
    (depth : nat) (xs ys : list hop) (rtA rtB : dn) (atA atB : attrs) (a b : ref) (ea eb : entry),
  let hA := tree_of lower depth xs rtA atA in let hB := tree_of lower depth ys rtB atB in
  (forall s, ascii s -> lower s = ascii_lower s) ->
  Forall (hop_ok (canonical lower) depth) xs -> Forall (hop_ok (canonical lower) depth) ys ->
  (forall e, entry_below hA 0%nat e -> (length (e_dn e) < depth)%nat) ->
  (forall f, entry_below hB 0%nat f -> (length (e_dn f) < depth)%nat /\ copyable lower f /\ proper lower f) ->
  (forall e f, entry_below hA 0%nat e -> entry_below hB 0%nat f -> same_dn lower (e_dn e) (e_dn f) -> comparable lower e f /\
    forall k, In k (keys_of e) -> In k (keys_of f)) ->
  below hA 0%nat a -> below hB 0%nat b -> entry_at hA a ea -> entry_at hB b eb -> same_dn lower (e_dn ea) (e_dn eb) ->
  exists ops h' os a', diff_tree lower hash_pair hash_tuple depth depth hA a hB b = Ok ops /\
    patch_ops lower oc_first depth 0%nat ops hA = (h', os) /\ Forall (eq (Ok tt)) os /\
    below h' 0%nat a' /\ (exists e', entry_at h' a' e' /\ same_dn lower (e_dn e') (e_dn ea)) /\
    same_entries (equal lower) h' a' hB b /\
    forall e, ~ in_tree lower (e_dn ea) (e_dn e) -> (entry_below h' 0%nat e <-> entry_below hA 0%nat e).
Proof.
  intros lower oc hp ht depth xs ys rtA rtB atA atB a b ea eb hA hB LS FA FB SA SB HAB Ba Bb Ea Eb S.
  destruct (tree_inv lower rtA atA depth xs FA) as (LA & IA). destruct (tree_inv lower rtB atB depth ys FB) as (LB & IB).
  destruct (tree_diff lower oc hp ht depth LS (canonical lower) (canonical_consistent lower) (canonical_same lower) True rtA rtB hA hB LA LB IA IB SA
    (fun f E => proj1 (SB f E)) (fun e f E F Q => proj1 (HAB e f E F Q)) (fun f E => proj1 (proj2 (SB f E)))
    (fun _ e f E F Q => proj2 (HAB e f E F Q)) (fun _ f E => proj2 (proj2 (SB f E))) a b ea eb Ba Bb Ea Eb S)
    as (ops & h' & os & a' & L' & D & P & F & _ & B' & E' & X & O).
  exists ops, h', os, a'. repeat (split; [assumption|]). split; [exact (like_true _ _ _ _ _ X)|exact O].
Qed.
Print Assumptions C23_equal_partial.

(** ** Concrete trees *)
Definition x_hp (p : str * str) : Z := fold_left (fun a c => a * 131 + c) (fst p ++ 0 :: snd p) 7.
Definition x_ht (l : list Z) : Z := fold_left (fun a c => a * 1000003 + c) l 3.
Notation x_tree xs a := (tree_of ascii_lower x_depth xs x_root a).
Definition x_diff (hA hB : heap) : res (list top) := diff_tree ascii_lower x_hp x_ht x_depth x_depth hA 0%nat hB 0%nat.
Definition x_patch (ops : list top) (hA : heap) : heap * list (res unit) := patch_ops ascii_lower true x_depth 0%nat ops hA.

(** Decisions of the hypotheses. Whatever is below an entry is in the heap. *)
Lemma below_entries h r e : entry_below h r e -> In e (map n_entry h).
Proof. intros (c & _ & n & N & <-). apply in_map. exact (nth_error_In _ _ N). Qed.
Definition some_types (p : bool -> bool -> bool) : bool := p true true || p true false || p false true || p false false.
Lemma some_types_ok p : some_types p = true -> exists kt vt, p kt vt = true.
Proof.
  unfold some_types. destruct (p true true) eqn:E1; [eauto|]. destruct (p true false) eqn:E2; [eauto|].
  destruct (p false true) eqn:E3; [eauto|]. destruct (p false false) eqn:E4; [eauto|discriminate].
Qed.
Definition asciib (k : pyval) : bool := match k with PStr s => forallb (fun c => (0 <=? c) && (c <? 128)) s | _ => true end.
Definition copyableb (e : entry) : bool :=
  some_types (fun kt vt => entry_okb ascii_lower kt vt e) && forallb (fun a => asciib (s_key a)) (e_attrs e).
Definition spelledb (e f : entry) : bool :=
  forallb (fun k => forallb (fun k' => negb (pyval_eqb (lowv ascii_lower k) (lowv ascii_lower k')) || pyval_eqb k k') (keys_of f)) (keys_of e).
Definition comparableb (e f : entry) : bool :=
  some_types (fun kt vt => entry_okb ascii_lower kt vt e && entry_okb ascii_lower kt vt f) && spelledb e f.
Definition properb (e : entry) : bool :=
  forallb (fun a => match s_vals a with [] => false | _ => true end &&
    (negb (pyval_eqb (lowv ascii_lower (s_key a)) (lowv ascii_lower (PStr (S_ "objectClass")))) || pyval_eqb (s_key a) (PStr (S_ "objectClass"))) &&
    (negb (pyval_eqb (lowv ascii_lower (s_key a)) (lowv ascii_lower (PBytes (B "objectClass")))) || pyval_eqb (s_key a) (PBytes (B "objectClass")))) (e_attrs e).
Lemma implb_eq a b c d : negb (pyval_eqb a b) || pyval_eqb c d = true -> a = b -> c = d.
Proof. intros H ->. rewrite pyval_eqb_refl in H. cbn [negb orb] in H. now apply pyval_eqb_eq. Qed.
Lemma copyableb_ok e : copyableb e = true -> copyable ascii_lower e.
Proof.
  intros H. apply andb_prop in H as (H & N). apply some_types_ok in H as (kt & vt & H). apply entry_okb_ok in H. exists kt, vt. split; [exact H|].
  apply Forall_forall. intros a J. rewrite forallb_forall in N. specialize (N a J). destruct H as (H & _). rewrite Forall_forall in H. split; [apply (H a J)|].
  intros s Q. rewrite Q in N. apply Forall_forall. intros c K. cbn [asciib] in N. rewrite forallb_forall in N. specialize (N c K). lia.
Qed.
Lemma comparableb_ok e f : comparableb e f = true -> comparable ascii_lower e f.
Proof.
  intros H. apply andb_prop in H as (H & N). apply some_types_ok in H as (kt & vt & H). apply andb_prop in H as (H1 & H2).
  exists kt, vt. split; [now apply entry_okb_ok|]. split; [now apply entry_okb_ok|]. intros k k' J J'. unfold spelledb in N. rewrite forallb_forall in N.
  specialize (N k J). rewrite forallb_forall in N. exact (implb_eq _ _ _ _ (N k' J')).
Qed.
Lemma properb_ok e : properb e = true -> proper ascii_lower e.
Proof.
  intros H a J. unfold properb in H. rewrite forallb_forall in H. specialize (H a J). apply andb_prop in H as (H & H3). apply andb_prop in H as (H1 & H2).
  split; [intros E; now rewrite E in H1|]. split; [exact (implb_eq _ _ _ _ H2)|exact (implb_eq _ _ _ _ H3)].
Qed.
Definition pairb (p : entry -> entry -> bool) (hA hB : heap) : bool :=
  forallb (fun e => forallb (fun f => negb (dn_eqb ascii_lower (e_dn e) (e_dn f)) || p e f) (map n_entry hB)) (map n_entry hA).
Lemma pairb_ok p hA hB : pairb p hA hB = true -> forall e f, entry_below hA 0%nat e -> entry_below hB 0%nat f ->
  same_dn ascii_lower (e_dn e) (e_dn f) -> p e f = true.
Proof.
  intros H e f E F S. unfold pairb in H. rewrite forallb_forall in H. specialize (H e (below_entries _ _ _ E)). rewrite forallb_forall in H.
  specialize (H f (below_entries _ _ _ F)). now rewrite (proj2 (dn_eqb_spec ascii_lower _ _) S) in H.
Qed.
Definition allb (p : entry -> bool) (h : heap) : bool := forallb p (map n_entry h).
Lemma allb_ok p h : allb p h = true -> forall e, entry_below h 0%nat e -> p e = true.
Proof. intros H e E. unfold allb in H. rewrite forallb_forall in H. exact (H e (below_entries _ _ _ E)). Qed.

(** dc=com with cn=a (over ou=x and ou=y) and cn=b becomes dc=com, with another cn, with cn=a (over
    ou=y) and cn=c (over ou=z). *)
Definition x_from : list hop := [x_add x_root "cn" "a"; x_add x_root "cn" "b"; x_add (rd1 "cn" "a" :: x_root) "ou" "x"; x_add (rd1 "cn" "a" :: x_root) "ou" "y"].
Definition x_to : list hop := [x_add x_root "cn" "a"; x_add x_root "cn" "c"; x_add (rd1 "cn" "a" :: x_root) "ou" "y"; x_add (rd1 "cn" "c" :: x_root) "ou" "z"].
Definition x_new (d : dn) (t v : string) : entry := new_entry ascii_lower d [(sv t, [sv v]); (sv "objectClass", [sv "top"])].
Lemma x_canonical t v : In (t, v) [("cn", "a"); ("cn", "b"); ("cn", "c"); ("ou", "x"); ("ou", "y"); ("ou", "z")] -> canonical ascii_lower (rd1 t v).
Proof.
  intros [[= <- <-]|[[= <- <-]|[[= <- <-]|[[= <- <-]|[[= <- <-]|[[= <- <-]|[]]]]]]]; ((split; [|split; [discriminate|]]); (apply Forall_cons; [|apply Forall_nil]); cbv [a_type a_value];
    [split; [|split]; [cbn; repeat (apply Forall_cons; [discriminate|]); apply Forall_nil|cbn; intuition discriminate|cbn; repeat (apply Forall_cons; [discriminate|]); apply Forall_nil]|split; reflexivity]).
Qed.
Example C23_case : let hA := x_tree x_from (x_attrs "root") in let hB := x_tree x_to (x_attrs "base") in
  (Forall (hop_ok (canonical ascii_lower) x_depth) x_from /\ Forall (hop_ok (canonical ascii_lower) x_depth) x_to /\
   (forall e, entry_below hA 0%nat e -> (length (e_dn e) < x_depth)%nat) /\
   (forall f, entry_below hB 0%nat f -> (length (e_dn f) < x_depth)%nat /\ copyable ascii_lower f /\ proper ascii_lower f) /\
   (forall e f, entry_below hA 0%nat e -> entry_below hB 0%nat f -> same_dn ascii_lower (e_dn e) (e_dn f) -> comparable ascii_lower e f /\
     forall k, In k (keys_of e) -> In k (keys_of f)) /\
   same_dn ascii_lower (dn_at hA 0%nat) (dn_at hB 0%nat)) /\
  x_diff hA hB = Ok [TModify x_root [mkDelta MAdd (bv "cn") [bv "base"]; mkDelta MDelete (bv "cn") [bv "root"]];
    TDelete (rd1 "ou" "x" :: rd1 "cn" "a" :: x_root);
    TAdd (x_new (rd1 "cn" "c" :: x_root) "cn" "c"); TAdd (x_new (rd1 "ou" "z" :: rd1 "cn" "c" :: x_root) "ou" "z");
    TDelete (rd1 "cn" "b" :: x_root)].
Proof.
  intros hA hB. split; [|vm_compute; reflexivity].
  split. { repeat (apply Forall_cons; [split; [apply x_canonical; cbn; tauto|cbn; unfold x_depth; lia]|]). apply Forall_nil. }
  split. { repeat (apply Forall_cons; [split; [apply x_canonical; cbn; tauto|cbn; unfold x_depth; lia]|]). apply Forall_nil. }
  assert (A1 : allb (fun e => Nat.ltb (length (e_dn e)) x_depth) hA = true) by (vm_compute; reflexivity).
  assert (B1 : allb (fun e => Nat.ltb (length (e_dn e)) x_depth) hB = true) by (vm_compute; reflexivity).
  assert (B2 : allb copyableb hB = true) by (vm_compute; reflexivity).
  assert (B3 : allb properb hB = true) by (vm_compute; reflexivity).
  assert (C1 : pairb comparableb hA hB = true) by (vm_compute; reflexivity).
  assert (C2 : pairb (fun e f => forallb (fun k => mem k (keys_of f)) (keys_of e)) hA hB = true) by (vm_compute; reflexivity).
  split; [intros e E; apply Nat.ltb_lt; exact (allb_ok _ _ A1 e E)|].
  split. { intros f F. split; [apply Nat.ltb_lt; exact (allb_ok _ _ B1 f F)|]. split; [exact (copyableb_ok f (allb_ok _ _ B2 f F))|exact (properb_ok f (allb_ok _ _ B3 f F))]. }
  split; [|now apply dn_eqb_spec]. intros e f E F S. split; [exact (comparableb_ok e f (pairb_ok _ _ _ C1 e f E F S))|].
  pose proof (pairb_ok _ _ _ C2 e f E F S) as X. cbv beta in X. rewrite forallb_forall in X. intros k J. apply mem_In. exact (X k J).
Qed.

(** ** What is left out is false *)
(** An attribute that is not in the second tree stays, without values: the entries are not equal. *)
Theorem C23_dropped_attribute_refuted : exists (hA hB : heap) (ops : list top) (h' : heap) (os : list (res unit)) (e f : entry),
  x_diff hA hB = Ok ops /\ x_patch ops hA = (h', os) /\ Forall (eq (Ok tt)) os /\
  entry_at h' 0%nat e /\ entry_at hB 0%nat f /\ entry_eq ascii_lower e f = Ok false.
Proof.
  exists (x_tree [] [(bv "cn", [bv "a"]); (bv "sn", [bv "b"])]), (x_tree [] [(bv "cn", [bv "a"])]). eexists. eexists. exists [Ok tt]. eexists. eexists.
  split; [vm_compute; reflexivity|]. split; [vm_compute; reflexivity|]. split; [now repeat constructor|].
  split; [eexists; split; vm_compute; reflexivity|]. split; [eexists; split; vm_compute; reflexivity|]. vm_compute. reflexivity.
Qed.
Print Assumptions C23_dropped_attribute_refuted.
(** Two trees whose DNs are equal, but for the case of one RDN: an operation fails, and an entry of
    the second tree is missing afterwards. *)
Theorem C23_case_refuted : exists (hA hB : heap) (ops : list top) (h' : heap) (os : list (res unit)) (d : dn) (r : ref),
  x_diff hA hB = Ok ops /\ x_patch ops hA = (h', os) /\ In (Err (ELdap 68)) os /\
  lookup ascii_lower x_depth hA 0%nat d = Ok r /\ lookup ascii_lower x_depth hB 0%nat d = Ok r /\
  lookup ascii_lower x_depth h' 0%nat d = Err (ELdap 32).
Proof.
  exists (x_tree [x_add x_root "cn" "a"; x_add (rd1 "cn" "a" :: x_root) "ou" "x"] []), (x_tree [x_add x_root "cn" "A"; x_add (rd1 "cn" "A" :: x_root) "ou" "x"] []).
  eexists. eexists. exists [Ok tt; Err (ELdap 68); Ok tt; Ok tt]. exists (rd1 "ou" "x" :: rd1 "cn" "a" :: x_root), 2%nat.
  split; [vm_compute; reflexivity|]. split; [vm_compute; reflexivity|]. split; [right; now left|].
  split; [vm_compute; reflexivity|]. split; vm_compute; reflexivity.
Qed.
Print Assumptions C23_case_refuted.
(** An entry whose objectClass is spelled otherwise is added with objectClass spelled so; the two do
    not compare equal. *)
Theorem C23_objectclass_refuted : exists (hA hB : heap) (ops : list top) (h' : heap) (os : list (res unit)) (r s : ref) (e f : entry),
  x_diff hA hB = Ok ops /\ x_patch ops hA = (h', os) /\ Forall (eq (Ok tt)) os /\
  lookup ascii_lower x_depth h' 0%nat (rd1 "cn" "a" :: x_root) = Ok r /\ lookup ascii_lower x_depth hB 0%nat (rd1 "cn" "a" :: x_root) = Ok s /\
  entry_at h' r e /\ entry_at hB s f /\ entry_eq ascii_lower e f = Ok false.
Proof.
  exists (x_tree [] []), (x_tree [HAdd x_root (rd1 "cn" "a") [(sv "cn", [sv "a"]); (sv "objectclass", [sv "top"])]] []).
  eexists. eexists. exists [Ok tt], 1%nat, 1%nat. eexists. eexists.
  split; [vm_compute; reflexivity|]. split; [vm_compute; reflexivity|]. split; [now repeat constructor|].
  split; [vm_compute; reflexivity|]. split; [vm_compute; reflexivity|].
  split; [eexists; split; vm_compute; reflexivity|]. split; [eexists; split; vm_compute; reflexivity|]. vm_compute. reflexivity.
Qed.
Print Assumptions C23_objectclass_refuted.
