(** C52, C53, C54: the directory of LDIF files. *)
From Verif Require Import Base BaseFacts Utf8Model DnModel DnSpec DnProofs EntryModel LdifModel LdifSpec PropsLdif InmemModel InmemSpec PropsEntry PropsInmem FsModel LdifTreeModel LdifTreeSpec FsProofs LdifTreeProofs LdifTreePlaces LdifTreeMap RdnValues LdifTreeMove InmemMove.
From Coq Require Import Permutation.

(** An example: the tree is in /srv; entries have their RDN and an object class. *)
Definition tx_R : path := [S_ "srv"].
Definition tx_f : fs := [(tx_R, Dir); ([S_ "other"], File (B "x"))].
Definition tx_a (t v : string) : attrs := [(sv t, [sv v]); (sv "objectClass", [sv "top"])].
Definition tx_add (p : dn) (t v : string) : str * hop := (S_ "u", HAdd p (rd1 t v) (tx_a t v)).
Definition tx_del (d : dn) : str * hop := (S_ "u", HDelete d).
Definition tx_hops := tree_hops ascii_lower lx_io lx_vio true (fun l => l) tx_R 9.
Definition tx_get := get ascii_lower lx_io lx_vio.
Definition tx_lookup := t_lookup ascii_lower lx_io lx_vio 9.
Definition cn (v : string) : rdn := rd1 "cn" v.
(** cn=a with a child cn=b *)
Definition tx_two : fs := fst (tx_hops [tx_add [] "cn" "a"; tx_add [cn "a"] "cn" "b"] tx_f).

Lemma tx_root : tree_root tx_R.
Proof. split; [discriminate|]. constructor; [|constructor]. repeat split; try discriminate; intros J; repeat destruct J as [J|J]; try discriminate J; contradiction. Qed.
Lemma tx_closed : closed tx_f.
Proof.
  intros p n. destruct p as [|x p]; [reflexivity|]. intros H. exfalso. apply stat_in in H; [|destruct p; discriminate]. destruct H as (m & [H|[H|[]]]); apply (f_equal fst) in H; cbn [fst] in H; destruct p; discriminate.
Qed.
Lemma part_tx (s : str) : forallb (fun c => negb (c =? 47) && negb (c =? 0)) s = true -> part s. Proof. apply part_lit. Qed.
Lemma plain_cn v : forallb (fun c => (0 <=? c) && negb (c =? 47)) (S_ v) = true -> plain_rdn (cn v).
Proof.
  intros H. rewrite forallb_forall in H. split; [discriminate|]. split; (constructor; [|constructor]).
  - split; [repeat constructor; discriminate|]. split; [intros J; repeat destruct J as [J|J]; try discriminate J; contradiction|]. apply Forall_forall. intros c I. specialize (H c I). lia.
  - split; [intros J; repeat destruct J as [J|J]; try discriminate J; contradiction|]. intros I. specialize (H _ I). discriminate.
Qed.

(** ** C52 *)
(** The process stops anywhere in put, addChild or commit: a later read finds, at every DN without
    slashes, what was there before; or the store was complete, the entry is the new one, and every other
    is as before. What is missing: RDNs with slashes (C54), and a file system that loses or reorders
    what was written when the machine stops. *)
Theorem C52_put_partial : forall (lower : str -> str) (io : Z -> Z -> res Z) (vio : str -> res Z) (oc : bool) (R : path) (f : fs) (uuid : str) (e : entry) steps r f',
  tree_root R -> closed f -> plain (e_dn e) -> part uuid ->
  put lower oc f uuid (abs R) e = (steps, r) -> crash f steps f' ->
  after_crash lower io vio oc R f f' e (run f steps r = (f', Ok tt)).
Proof. intros lower io vio oc R f uuid e steps r f' TR CF. exact (put_crash lower io vio oc R TR f CF uuid e steps r f'). Qed.
Print Assumptions C52_put_partial.
Theorem C52_add_partial : forall (lower : str -> str) (io : Z -> Z -> res Z) (vio : str -> res Z) (oc : bool) (order : list str -> list str) (R : path) (f : fs) (t : lent) (uuid : str) (rd : rdn) (a : attrs) steps r f',
  tree_root R -> closed f -> placed R t -> plain_rdn rd -> part uuid ->
  add_child_steps lower io vio oc order f t uuid rd a = (steps, r) -> crash f steps f' ->
  after_crash lower io vio oc R f f' (new_entry lower (rd :: t_dn t) a) (run f steps r = (f', Ok tt)).
Proof. intros lower io vio oc order R f t uuid rd a steps r f' TR CF. exact (add_crash lower io vio oc R TR order f CF t uuid rd a steps r f'). Qed.
Print Assumptions C52_add_partial.
Theorem C52_commit_partial : forall (lower : str -> str) (io : Z -> Z -> res Z) (vio : str -> res Z) (oc : bool) (R : path) (f : fs) (t : lent) (uuid : str) steps r f',
  tree_root R -> closed f -> placed R t -> t_dn t <> [] -> part uuid ->
  put_entry lower oc uuid (chop (S_ ".dir") (t_path t)) (t_entry t) = (steps, r) -> crash f steps f' ->
  after_crash lower io vio oc R f f' (t_entry t) (run f steps r = (f', Ok tt)) /\
  t_commit lower oc f uuid t = (fst (run f steps r), Ok (match snd (run f steps r) with Ok _ => true | Err _ => false end)).
Proof.
  intros lower io vio oc R f t uuid steps r f' TR CF P N U E Cr. split; [exact (commit_crash lower io vio oc R TR f CF t uuid steps r f' P N U E Cr)|].
  unfold t_commit. assert (En : endswith (S_ ".dir") (t_path t) = true) by (destruct P as (-> & _); destruct (t_dn t) as [|x d]; [congruence|]; rewrite dirs_cons, app_assoc; unfold dir_name; rewrite <- abs_ext; apply endswith_app).
  rewrite En. cbn [negb]. rewrite E. destruct (run f steps r) as (g & [u|x]); reflexivity.
Qed.
Print Assumptions C52_commit_partial.
(** What has been written reads back as the entry. *)
Theorem C52_new_entry : forall (lower : str -> str) (io : Z -> Z -> res Z) (vio : str -> res Z) (oc : bool) (e : entry),
  lower_oc lower -> storable lower oc e ->
  exists w e', entry_toWire lower oc e = Ok w /\ parse_file lower io vio w = Ok e' /\ same_entry e e'.
Proof. intros lower io vio oc e L. exact (storable_reads lower io vio oc L e). Qed.
Print Assumptions C52_new_entry.
(** An exception while the entry is written is like a crash: the old entry stays. *)
Theorem C52_exception_partial : forall (lower : str -> str) (io : Z -> Z -> res Z) (vio : str -> res Z) (oc : bool) (R : path) (f : fs) (uuid : str) (e : entry) steps r x,
  tree_root R -> closed f -> plain (e_dn e) -> part uuid ->
  put lower oc f uuid (abs R) e = (steps, r) -> snd (run f steps r) = Err x ->
  forall d, plain d -> get lower io vio (fst (run f steps r)) (abs R) d = get lower io vio f (abs R) d.
Proof.
  intros lower io vio oc R f uuid e steps r x TR CF P U E X. destruct (put_crash lower io vio oc R TR f CF uuid e steps r _ P U E (run_crash steps f r)) as (_ & [H|(H & _)]); [exact H|]. rewrite H in X. discriminate.
Qed.
Print Assumptions C52_exception_partial.
(** Moving is not atomic: between the two renames the children are gone from under the old name, and
    there is no entry with the new name. *)
Theorem C52_move_refuted : exists t steps t' f' e,
  tx_lookup tx_two (t_root tx_R) [cn "a"] = Ok t /\ move_steps ascii_lower t None [cn "c"] = Ok (steps, t') /\ crash tx_two steps f' /\
  tx_get tx_two (abs tx_R) [cn "b"; cn "a"] = Ok e /\ tx_get f' (abs tx_R) [cn "b"; cn "a"] = Err ENOENT /\ tx_get f' (abs tx_R) [cn "c"] = Err ENOENT.
Proof.
  eexists. eexists. eexists. eexists. eexists. split; [vm_compute; reflexivity|]. split; [vm_compute; reflexivity|]. split; [eapply crash_later; [vm_compute; reflexivity|apply crash_here]|]. split; [vm_compute; reflexivity|]. split; vm_compute; reflexivity.
Qed.
Print Assumptions C52_move_refuted.
(** Storing cn=b under cn=a, which has no directory yet, in four steps; a write cut short. *)
Example C52_case : let f := fst (tx_hops [tx_add [] "cn" "a"] tx_f) in let e := new_entry ascii_lower [cn "b"; cn "a"] (tx_a "cn" "b") in
  plain (e_dn e) /\ part (S_ "u") /\ length (fst (put ascii_lower true f (S_ "u") (abs tx_R) e)) = 4%nat /\
  snd (run f (fst (put ascii_lower true f (S_ "u") (abs tx_R) e)) (Ok tt)) = Ok tt /\
  exists e', tx_get (fst (run f (fst (put ascii_lower true f (S_ "u") (abs tx_R) e)) (Ok tt))) (abs tx_R) [cn "b"; cn "a"] = Ok e'.
Proof.
  cbv zeta. split; [repeat (apply Forall_cons; [apply plain_cn; reflexivity|]); apply Forall_nil|]. split; [apply part_tx; reflexivity|]. split; [vm_compute; reflexivity|]. split; [vm_compute; reflexivity|]. eexists. vm_compute. reflexivity.
Qed.

(** ** C53 *)
(** In an empty directory, for every history of additions and deletions: every request has the outcome it
    has on a map from DN to attributes; and afterwards exactly the DNs in the map are found, with an
    entry that says what was added. RDNs are of a set [C] of RDNs without slashes, that are equal only
    if spelled the same; no entry that ever had a child is deleted. The refutations below show that
    neither can be left out. *)
Theorem C53_map_partial : forall (lower : str -> str) (io : Z -> Z -> res Z) (vio : str -> res Z) (oc : bool) (order : list str -> list str) (R : path) (C : rdn -> Prop) (depth : nat) (xs : list (str * hop)) f f' os M os',
  tree_root R -> lower_oc lower -> (forall l, Permutation l (order l)) -> (forall r, C r -> plain_rdn r) -> consistent lower C ->
  closed f -> empty_dir f R -> (forall u x, In (u, x) xs -> tree_hop_ok lower oc C depth u x) -> tidy lower xs [([], [])] [] ->
  tree_hops lower io vio oc order R depth xs f = (f', os) -> spec_hops lower [] (map snd xs) [([], [])] = (M, os') ->
  os = os' /\ forall d, Forall C d -> (length d < depth)%nat ->
    match find (at_dn lower d) M with
    | Some (_, a) => exists t, t_lookup lower io vio depth f' (t_root R) d = Ok t /\ same_entry (new_entry lower d a) (t_entry t)
    | None => t_lookup lower io vio depth f' (t_root R) d = Err (ELdap 32)
    end.
Proof. intros lower io vio oc order R C depth xs f f' os M os' TR L O CP CC. exact (map_spec lower io vio oc order R C TR L O CP CC depth xs f f' os M os'). Qed.
Print Assumptions C53_map_partial.
(** deleteChild(rdn) does to the tree what delete does to the entry with that RDN below this one. *)
Theorem C53_delete_child_partial : forall (lower : str -> str) (io : Z -> Z -> res Z) (vio : str -> res Z) (oc : bool) (order : list str -> list str) (R : path) (C : rdn -> Prop) (depth : nat) (xs : list (str * hop)) f f' os u d rd t,
  tree_root R -> lower_oc lower -> (forall l, Permutation l (order l)) -> (forall r, C r -> plain_rdn r) -> consistent lower C ->
  closed f -> empty_dir f R -> (forall u x, In (u, x) xs -> tree_hop_ok lower oc C depth u x) -> tidy lower xs [([], [])] [] ->
  tree_hops lower io vio oc order R depth xs f = (f', os) -> Forall C (rd :: d) -> (S (length d) < depth)%nat ->
  t_lookup lower io vio depth f' (t_root R) d = Ok t -> t_delete_child lower io vio order f' t rd = tree_hop lower io vio oc order R depth u (HDelete (rd :: d)) f'.
Proof. intros lower io vio oc order R C depth xs f f' os u d rd t TR L O CP CC. exact (delete_child_spec lower io vio oc order R C TR L O CP CC depth xs f f' os u d rd t). Qed.
Print Assumptions C53_delete_child_partial.
(** The children of an entry: each entry of the map directly below it, once, and no other. *)
Theorem C53_children_partial : forall (lower : str -> str) (io : Z -> Z -> res Z) (vio : str -> res Z) (oc : bool) (order : list str -> list str) (R : path) (C : rdn -> Prop) (depth : nat) (xs : list (str * hop)) f f' os M os' d t,
  tree_root R -> lower_oc lower -> (forall l, Permutation l (order l)) -> (forall r, C r -> plain_rdn r) -> consistent lower C ->
  closed f -> empty_dir f R -> (forall u x, In (u, x) xs -> tree_hop_ok lower oc C depth u x) -> tidy lower xs [([], [])] [] ->
  tree_hops lower io vio oc order R depth xs f = (f', os) -> spec_hops lower [] (map snd xs) [([], [])] = (M, os') ->
  Forall C d -> (length d < depth)%nat -> t_lookup lower io vio depth f' (t_root R) d = Ok t ->
  exists cs, sync_children lower io vio order f' t = Ok cs /\ NoDup (map t_dn cs) /\
    (forall x, In x (map t_dn cs) <-> exists r a, x = r :: d /\ In (r :: d, a) M) /\
    (forall c, In c cs -> exists a, In (t_dn c, a) M /\ same_entry (new_entry lower (t_dn c) a) (t_entry c)).
Proof. intros lower io vio oc order R C depth xs f f' os M os' d t TR L O CP CC. exact (children_spec lower io vio oc order R C TR L O CP CC depth xs f f' os M os' d t). Qed.
Print Assumptions C53_children_partial.
(** A deleted entry that once had a child is still found, without attributes, and cannot be added
    again: the directory for its children stays. *)
Theorem C53_ghost_refuted : exists t, let xs := [tx_add [] "cn" "a"; tx_add [cn "a"] "cn" "b"; tx_del [cn "b"; cn "a"]; tx_del [cn "a"]] in
  snd (tx_hops xs tx_f) = [Ok tt; Ok tt; Ok tt; Ok tt] /\
  find (at_dn ascii_lower [cn "a"]) (fst (spec_hops ascii_lower [] (map snd xs) [([], [])])) = None /\
  tx_lookup (fst (tx_hops xs tx_f)) (t_root tx_R) [cn "a"] = Ok t /\ e_attrs (t_entry t) = [] /\
  snd (tx_hops [tx_add [] "cn" "a"] (fst (tx_hops xs tx_f))) = [Err (ELdap 68)].
Proof. eexists. cbv zeta. split; [vm_compute; reflexivity|]. split; [vm_compute; reflexivity|]. split; [vm_compute; reflexivity|]. split; vm_compute; reflexivity. Qed.
Print Assumptions C53_ghost_refuted.
(** An entry is not found by an equal DN that is spelled otherwise. *)
Theorem C53_case_refuted : let f := fst (tx_hops [tx_add [] "cn" "A"] tx_f) in
  dn_eqb ascii_lower [cn "A"] [cn "a"] = true /\ (exists t, tx_lookup f (t_root tx_R) [cn "A"] = Ok t) /\ tx_lookup f (t_root tx_R) [cn "a"] = Err (ELdap 32).
Proof. cbv zeta. split; [reflexivity|]. split; [eexists; vm_compute; reflexivity|vm_compute; reflexivity]. Qed.
Print Assumptions C53_case_refuted.
(** A move replaces an entry that has the new DN. *)
Theorem C53_move_refuted : let xs := [tx_add [] "cn" "a"; (S_ "u", HAdd [] (cn "b") [(sv "objectClass", [sv "person"])])] in
  let f := fst (tx_hops xs tx_f) in exists t o a f' t',
  snd (tx_hops xs tx_f) = [Ok tt; Ok tt] /\ tx_lookup f (t_root tx_R) [cn "a"] = Ok t /\ tx_lookup f (t_root tx_R) [cn "b"] = Ok o /\
  t_move ascii_lower lx_io lx_vio true 9 f (S_ "v") t [cn "b"] = (f', Ok (t', true)) /\
  tx_lookup f' (t_root tx_R) [cn "b"] = Ok a /\ tx_lookup f' (t_root tx_R) [cn "a"] = Err (ELdap 32) /\
  map s_vals (e_attrs (t_entry o)) = [[bv "person"]] /\ map s_vals (e_attrs (t_entry a)) = [[bv "top"]; [bv "b"]].
Proof.
  cbv zeta. eexists. eexists. eexists. eexists. eexists. split; [vm_compute; reflexivity|]. split; [vm_compute; reflexivity|]. split; [vm_compute; reflexivity|]. split; [vm_compute; reflexivity|]. split; [vm_compute; reflexivity|]. split; [vm_compute; reflexivity|]. split; vm_compute; reflexivity.
Qed.
Print Assumptions C53_move_refuted.
(** A move that succeeds, to a DN below which no directory is yet, under the same DN (spelled the same)
    or another: the entry is at the new DN, without the values of the old RDN and with those of the new
    one; nothing is at the old DN; every descendant is where its DN now says, unchanged; all other
    entries are as they were. *)
Theorem C53_move_partial : forall (lower : str -> str) (io : Z -> Z -> res Z) (vio : str -> res Z) (oc : bool) (R : path) (depth : nat) (f : fs) (uuid : str) (t : lent) (newDN : dn) f' t',
  tree_root R -> lower_oc lower -> closed f -> placed R t -> plain newDN -> part uuid -> octet_sets lower (t_entry t) ->
  (exists e0, get lower io vio f (abs R) (t_dn t) = Ok e0) -> newDN <> t_dn t -> stat f (R ++ dirs_of newDN) = None ->
  (dn_eqb lower (dn_up newDN) (dn_up (t_dn t)) = true -> dn_up newDN = dn_up (t_dn t)) ->
  t_move lower io vio oc depth f uuid t newDN = (f', Ok (t', true)) ->
  t_dn t' = newDN /\ placed R t' /\ closed f' /\ octet_sets lower (t_entry t') /\
  (forall k v, says (t_entry t') k v <-> (says (t_entry t) k v /\ ~ rdn_says (hd [] (t_dn t)) k v) \/ rdn_says (hd [] newDN) k v) /\
  (storable lower oc (t_entry t') -> exists e', get lower io vio f' (abs R) newDN = Ok e' /\ same_entry (t_entry t') e') /\
  get lower io vio f' (abs R) (t_dn t) = Err ENOENT /\
  (forall x, x <> [] -> plain x -> get lower io vio f' (abs R) (x ++ newDN) = get lower io vio f (abs R) (x ++ t_dn t)) /\
  (forall e, plain e -> (forall x, e <> x ++ newDN) -> (forall x, e <> x ++ t_dn t) -> get lower io vio f' (abs R) e = get lower io vio f (abs R) e).
Proof.
  intros lower io vio oc R depth f uuid t newDN f' t' TR L CF P Pn U O G Ne Sq HP Mv.
  destruct (move_spec lower io vio oc R TR depth f CF uuid t newDN f' t' P Pn U G Ne Sq HP Mv) as (H1 & H2 & H3 & (w & W & Gw) & H4 & H5 & H6 & o & n & e1 & e2 & Eo & En & E1 & E2 & Ea).
  destruct (moved_says lower o n (t_entry t) e1 e2 (t_entry t') O E1 E2 Ea) as (O' & Sy). split; [exact H1|]. split; [exact H2|]. split; [exact H3|]. split; [exact O'|].
  split; [destruct (t_dn t); [discriminate|]; destruct newDN; [discriminate|]; injection Eo as ->; injection En as ->; exact Sy|]. split; [|auto].
  intros St. destruct (storable_reads lower io vio oc L (t_entry t') St) as (w' & e' & W' & Pf & Se). exists e'. split; [|exact Se]. rewrite Gw. congruence.
Qed.
Print Assumptions C53_move_partial.
(** A move below an entry that never had a child fails: there is no directory to move to. *)
Theorem C53_move_leaf_refuted : let f := fst (tx_hops [tx_add [] "cn" "a"; tx_add [] "cn" "b"] tx_f) in exists t p f',
  tx_lookup f (t_root tx_R) [cn "a"] = Ok t /\ tx_lookup f (t_root tx_R) [cn "b"] = Ok p /\
  t_move ascii_lower lx_io lx_vio true 9 f (S_ "v") t [cn "a"; cn "b"] = (f', Err ENOENT).
Proof. cbv zeta. eexists. eexists. eexists. split; [vm_compute; reflexivity|]. split; vm_compute; reflexivity. Qed.
Print Assumptions C53_move_leaf_refuted.
(** The new value is text among octets: when its attribute has another value the two cannot be sorted, and
    the move leaves at the new DN the file that was at the old one, with the old DN and the old value in it. *)
Theorem C53_move_values_refuted : let f := fst (tx_hops [(S_ "u", HAdd [] (cn "a") [(sv "cn", [sv "a"; sv "x"])])] tx_f) in exists t f' t' e,
  tx_lookup f (t_root tx_R) [cn "a"] = Ok t /\ octet_sets ascii_lower (t_entry t) /\ t_move ascii_lower lx_io lx_vio true 9 f (S_ "v") t [cn "b"] = (f', Ok (t', false)) /\
  tx_get f' (abs tx_R) [cn "b"] = Ok e /\ e_dn e = [cn "a"] /\ map s_vals (e_attrs e) = [[bv "a"; bv "x"]].
Proof.
  cbv zeta. eexists. eexists. eexists. eexists. split; [vm_compute; reflexivity|]. split; [split; [apply Forall_cons; [|apply Forall_nil]; split; [eexists; reflexivity|vm_compute; repeat constructor; intros X; repeat destruct X as [X|X]; discriminate X || exact X]|vm_compute; repeat constructor; intros []]|]. split; [vm_compute; reflexivity|]. split; [vm_compute; reflexivity|]. split; vm_compute; reflexivity.
Qed.
Print Assumptions C53_move_values_refuted.
Definition tx_C (r : rdn) : Prop := canonical ascii_lower r /\ plain_rdn r.
Definition tx_xs : list (str * hop) := [tx_add [] "cn" "a"; tx_add [cn "a"] "cn" "b"; tx_add [] "cn" "c"; tx_del [cn "b"; cn "a"]; tx_add [] "cn" "c"; tx_del [cn "c"]].
Lemma tx_consistent : consistent ascii_lower tx_C.
Proof. intros a b (A & _) (Bb & _). now apply canonical_consistent. Qed.
Lemma tx_storable d v : (d, v) = ([cn "a"], "a"%string) \/ (d, v) = ([cn "b"; cn "a"], "b"%string) \/ (d, v) = ([cn "c"], "c"%string) -> storable ascii_lower true (new_entry ascii_lower d (tx_a "cn" v)).
Proof.
  intros H. assert (A : ldif_entry_ok ascii_lower (new_entry ascii_lower d (tx_a "cn" v))).
  { destruct H as [[= -> ->]|[[= -> ->]|[= -> ->]]]; (split; [split; [|discriminate]; repeat (first [solve [apply scalar_lit; reflexivity]|apply Forall_nil|apply Forall_cons|split]); (intros X; vm_compute in X; repeat destruct X as [X|X]; congruence)|]; split;
     [repeat constructor; vm_compute; intuition congruence|]; intros a [<-|[<-|[]]]; (split; [vm_compute; eauto|]); split;
     [intros k E; apply (lx_key (B "cn")); [reflexivity..|exact E]|right; intros x [<-|[]]; eexists; eexists; (split; [reflexivity|vm_compute; reflexivity])|intros k E; apply (lx_key (B "objectClass")); [reflexivity..|exact E]|right; intros x [<-|[]]; eexists; eexists; (split; [reflexivity|vm_compute; reflexivity])]). }
  split; [exact A|]. intros w E. apply short_small. destruct H as [[= -> ->]|[[= -> ->]|[= -> ->]]]; vm_compute in E; apply Ok_inj in E; subst w; reflexivity.
Qed.
Lemma tx_C_cn v : v = "a"%string \/ v = "b"%string \/ v = "c"%string -> tx_C (cn v).
Proof.
  intros H. split; [|destruct H as [->|[->| ->]]; now apply plain_cn]. destruct H as [->|[->| ->]]; ((split; [|split; [discriminate|]]); (apply Forall_cons; [|apply Forall_nil]); cbv [a_type a_value];
    [split; [|split]; [cbn; repeat (apply Forall_cons; [discriminate|]); apply Forall_nil|cbn; intuition discriminate|cbn; repeat (apply Forall_cons; [discriminate|]); apply Forall_nil]|split; reflexivity]).
Qed.
Example C53_case : tree_root tx_R /\ lower_oc ascii_lower /\ consistent ascii_lower tx_C /\ closed tx_f /\ empty_dir tx_f tx_R /\
  (forall u x, In (u, x) tx_xs -> tree_hop_ok ascii_lower true tx_C 9 u x) /\ tidy ascii_lower tx_xs [([], [])] [] /\
  snd (tx_hops tx_xs tx_f) = [Ok tt; Ok tt; Ok tt; Ok tt; Err (ELdap 68); Ok tt] /\
  (exists t, tx_lookup (fst (tx_hops tx_xs tx_f)) (t_root tx_R) [cn "a"] = Ok t) /\
  tx_lookup (fst (tx_hops tx_xs tx_f)) (t_root tx_R) [cn "c"] = Err (ELdap 32) /\
  tx_lookup (fst (tx_hops tx_xs tx_f)) (t_root tx_R) [cn "b"; cn "a"] = Err (ELdap 32).
Proof.
  assert (Ca : tx_C (cn "a")) by (apply tx_C_cn; auto). assert (Cb : tx_C (cn "b")) by (apply tx_C_cn; auto). assert (Cc : tx_C (cn "c")) by (apply tx_C_cn; auto).
  split; [exact tx_root|]. split; [exact lx_oc|]. split; [exact tx_consistent|]. split; [exact tx_closed|]. split; [split; [reflexivity|]; intros n q; reflexivity|].
  split. { assert (U : part (S_ "u")) by (apply part_tx; reflexivity).
    intros u x [[= <- <-]|[[= <- <-]|[[= <- <-]|[[= <- <-]|[[= <- <-]|[[= <- <-]|[]]]]]]]; (split; [exact U|]); (split; [repeat (apply Forall_cons; [assumption|]); apply Forall_nil|]); try (split; [|apply tx_storable; auto]); cbn; lia. }
  split; [cbn [tidy tx_xs tx_add tx_del]; repeat split; intros _ J; repeat destruct J as [J|J]; try discriminate J; contradiction|].
  split; [vm_compute; reflexivity|]. split; [eexists; vm_compute; reflexivity|]. split; vm_compute; reflexivity.
Qed.

Definition closedb (f : fs) : bool := forallb (fun x => match fst x with [] => true | _ => match stat f (removelast (fst x)) with Some Dir => true | _ => false end end) f.
Lemma closedb_ok f : closedb f = true -> closed f.
Proof.
  intros H p n S. destruct p as [|y p]; [reflexivity|]. apply stat_in in S; [|discriminate]. destruct S as (m & I). unfold closedb in H. rewrite forallb_forall in H. specialize (H _ I). cbn [fst app] in H. change (y :: p ++ [n]) with ((y :: p) ++ [n]) in H. rewrite removelast_last in H.
  destruct (stat f (y :: p)) as [[c|]|]; try discriminate. reflexivity.
Qed.
Example C53_move_case : exists t f' t', tx_lookup tx_two (t_root tx_R) [cn "a"] = Ok t /\
  closed tx_two /\ placed tx_R t /\ plain [cn "c"] /\ part (S_ "v") /\ octet_sets ascii_lower (t_entry t) /\ (exists e0, tx_get tx_two (abs tx_R) (t_dn t) = Ok e0) /\
  [cn "c"] <> t_dn t /\ stat tx_two (tx_R ++ dirs_of [cn "c"]) = None /\ dn_up [cn "c"] = dn_up (t_dn t) /\
  t_move ascii_lower lx_io lx_vio true 9 tx_two (S_ "v") t [cn "c"] = (f', Ok (t', true)) /\ storable ascii_lower true (t_entry t') /\
  (exists e, tx_get f' (abs tx_R) [cn "b"; cn "c"] = Ok e).
Proof.
  eexists. eexists. eexists. split; [vm_compute; reflexivity|]. split; [apply closedb_ok; vm_compute; reflexivity|]. split; [split; [reflexivity|apply Forall_cons; [exact (plain_cn "a" eq_refl)|apply Forall_nil]]|]. split; [apply Forall_cons; [apply plain_cn; reflexivity|apply Forall_nil]|]. split; [apply part_tx; reflexivity|].
  split; [split; [repeat (apply Forall_cons; [split; [eexists; reflexivity|vm_compute; repeat constructor; intros []]|]); apply Forall_nil|vm_compute; repeat constructor; intros X; repeat destruct X as [X|X]; discriminate X || exact X]|].
  split; [eexists; vm_compute; reflexivity|]. split; [discriminate|]. split; [reflexivity|]. split; [reflexivity|]. split; [vm_compute; reflexivity|]. split; [|eexists; vm_compute; reflexivity].
  split.
  - split; [split; [|discriminate]; repeat (first [solve [apply scalar_lit; reflexivity]|apply Forall_nil|apply Forall_cons|split]); (intros X; vm_compute in X; repeat destruct X as [X|X]; congruence)|]. split; [repeat constructor; vm_compute; intuition congruence|].
    intros a [<-|[<-|[]]]; (split; [vm_compute; eauto|]); split;
     [intros k E; apply (lx_key (B "objectClass")); [reflexivity..|exact E]|left; intros x [<-|[]]; eexists; reflexivity|intros k E; apply (lx_key (B "cn")); [reflexivity..|exact E]|right; intros x [<-|[]]; eexists; eexists; (split; [reflexivity|vm_compute; reflexivity])].
  - intros w E. apply short_small. vm_compute in E. apply Ok_inj in E. subst w. reflexivity.
Qed.
(** The children of the root, and a child deleted by its RDN, after the requests of the case above. *)
Example C53_children_case : let f := fst (tx_hops tx_xs tx_f) in exists c,
  sync_children ascii_lower lx_io lx_vio (fun l => l) f (t_root tx_R) = Ok [c] /\ t_dn c = [cn "a"] /\ Forall tx_C [cn "a"] /\
  snd (t_delete_child ascii_lower lx_io lx_vio (fun l => l) f (t_root tx_R) (cn "a")) = Ok tt /\
  snd (t_delete_child ascii_lower lx_io lx_vio (fun l => l) f (t_root tx_R) (cn "c")) = Err (ELdap 32).
Proof. cbv zeta. eexists. split; [vm_compute; reflexivity|]. split; [vm_compute; reflexivity|]. split; [apply Forall_cons; [apply tx_C_cn; auto|apply Forall_nil]|]. split; vm_compute; reflexivity. Qed.

(** ** C54 *)
(** DNs without slashes. Reading: nothing outside the root directory matters, to get, to lookup and to
    listing children; and every entry found is in the root directory. *)
Theorem C54_get_partial : forall (lower : str -> str) (io : Z -> Z -> res Z) (vio : str -> res Z) (R : path) (f : fs) (d : dn),
  tree_root R -> plain d -> get lower io vio (only R f) (abs R) d = get lower io vio f (abs R) d.
Proof. intros lower io vio R f d TR. exact (get_only lower io vio R TR f d). Qed.
Print Assumptions C54_get_partial.
Theorem C54_lookup_partial : forall (lower : str -> str) (io : Z -> Z -> res Z) (vio : str -> res Z) (R : path) (depth : nat) (f : fs) (t : lent) (d : dn),
  tree_root R -> in_place R t -> plain d ->
  t_lookup lower io vio depth (only R f) t d = t_lookup lower io vio depth f t d /\
  (forall t', t_lookup lower io vio depth f t d = Ok t' -> in_place R t').
Proof. intros lower io vio R depth f t d TR. exact (lookup_only lower io vio R TR depth f t d). Qed.
Print Assumptions C54_lookup_partial.
Theorem C54_children : forall (lower : str -> str) (io : Z -> Z -> res Z) (vio : str -> res Z) (order : list str -> list str) (R : path) (f : fs) (t : lent),
  tree_root R -> (forall l, Permutation l (order l)) -> named f -> in_place R t ->
  sync_children lower io vio order (only R f) t = sync_children lower io vio order f t /\
  (forall cs, sync_children lower io vio order f t = Ok cs -> forall c, In c cs -> in_place R c /\ t_dn c <> []).
Proof. intros lower io vio order R f t TR O. exact (sync_only lower io vio order R TR O f t). Qed.
Print Assumptions C54_children.
(** Writing: nothing outside the root directory is changed, wherever the operation stops. *)
Theorem C54_put_partial : forall (lower : str -> str) (oc : bool) (R : path) (f f' : fs) (uuid : str) (e : entry),
  tree_root R -> plain (e_dn e) -> part uuid -> crash f (fst (put lower oc f uuid (abs R) e)) f' -> kept_outside R f f'.
Proof. intros lower oc R f f' uuid e TR P U. exact (crash_kept R TR f _ f' (put_in lower (fun _ => Err EAssert) oc (fun l => l) R TR (fun l => Permutation_refl l) f uuid e P U)). Qed.
Print Assumptions C54_put_partial.
Theorem C54_add_partial : forall (lower : str -> str) (io : Z -> Z -> res Z) (vio : str -> res Z) (oc : bool) (order : list str -> list str) (R : path) (f f' : fs) (t : lent) (uuid : str) (rd : rdn) (a : attrs),
  tree_root R -> (forall l, Permutation l (order l)) -> in_place R t -> plain_rdn rd -> part uuid ->
  crash f (fst (add_child_steps lower io vio oc order f t uuid rd a)) f' -> kept_outside R f f'.
Proof. intros lower io vio oc order R f f' t uuid rd a TR O I P U. exact (crash_kept R TR f _ f' (add_in lower io vio oc order R TR O f t uuid rd a I P U)). Qed.
Print Assumptions C54_add_partial.
Theorem C54_delete : forall (lower : str -> str) (io : Z -> Z -> res Z) (vio : str -> res Z) (order : list str -> list str) (R : path) (f f' : fs) (t : lent),
  tree_root R -> (forall l, Permutation l (order l)) -> in_place R t -> t_path t <> abs R ->
  crash f (fst (delete_steps lower io vio order f t)) f' -> kept_outside R f f'.
Proof. intros lower io vio order R f f' t TR O I N. exact (crash_kept R TR f _ f' (delete_in lower io vio order R O f t I N)). Qed.
Print Assumptions C54_delete.
Theorem C54_commit_partial : forall (lower : str -> str) (oc : bool) (R : path) (f : fs) (t : lent) (uuid : str),
  tree_root R -> in_place R t -> t_path t <> abs R -> part uuid -> kept_outside R f (fst (t_commit lower oc f uuid t)).
Proof.
  intros lower oc R f t uuid TR I N U. unfold t_commit. destruct (endswith (S_ ".dir") (t_path t)) eqn:E; cbn [negb]; [|intros q _; reflexivity].
  pose proof (commit_in lower (fun _ _ => Err EAssert) (fun _ => Err EAssert) oc (fun l => l) R (fun l => Permutation_refl l) uuid t I N U E) as H.
  destruct (put_entry lower oc uuid _ _) as (s & r). cbn [fst] in H. pose proof (crash_kept R TR f s _ H (run_crash s f r)) as K. destruct (run f s r) as (f' & o). exact K.
Qed.
Print Assumptions C54_commit_partial.
Theorem C54_move_partial : forall (lower : str -> str) (io : Z -> Z -> res Z) (vio : str -> res Z) (oc : bool) (R : path) (depth : nat) (f : fs) (uuid : str) (t : lent) (newDN : dn),
  tree_root R -> placed R t -> plain newDN -> part uuid -> kept_outside R f (fst (t_move lower io vio oc depth f uuid t newDN)).
Proof. intros lower io vio oc R depth f uuid t newDN TR. exact (move_kept lower io vio oc (fun l => l) R TR (fun l => Permutation_refl l) depth f uuid t newDN). Qed.
Print Assumptions C54_move_partial.

(** With slashes, the claim is false. The DN is as a client can send it, as text. *)
Definition tx_etc : fs := (tx_R, Dir) :: ([S_ "etc"], Dir) :: ([S_ "etc"; S_ "x=1.ldif"], File (B "dn: cn=a" ++ [z2b 10] ++ B "cn: a" ++ [z2b 10; z2b 10])) :: nil.
Theorem C54_absolute_refuted : exists d e f', parse_dn lx_io (S_ "/etc/x=1") = Ok d /\
  tx_get tx_etc (abs tx_R) d = Ok e /\ tx_get (only tx_R tx_etc) (abs tx_R) d = Err ENOENT /\
  run tx_etc (fst (put ascii_lower true tx_etc (S_ "u") (abs tx_R) (new_entry ascii_lower d (tx_a "cn" "b")))) (Ok tt) = (f', Ok tt) /\
  ~ kept_outside tx_R tx_etc f'.
Proof.
  eexists. eexists. eexists. split; [vm_compute; reflexivity|]. split; [vm_compute; reflexivity|]. split; [vm_compute; reflexivity|]. split; [vm_compute; reflexivity|].
  intros K. specialize (K [S_ "etc"; S_ "x=1.ldif"]). assert (N : ~ inside tx_R [S_ "etc"; S_ "x=1.ldif"]) by (intros (s & Q); discriminate). specialize (K N). vm_compute in K. discriminate K.
Qed.
Print Assumptions C54_absolute_refuted.
Theorem C54_dotdot_refuted : exists d t f', parse_dn lx_io (S_ "cn=a.dir/../../y") = Ok [d] /\
  tx_lookup tx_two (t_root tx_R) [] = Ok t /\ fst (t_add_child ascii_lower lx_io lx_vio true (fun l => l) tx_two t (S_ "u") d (tx_a "cn" "y")) = f' /\
  stat tx_two [S_ "y.ldif"] = None /\ exists w, stat f' [S_ "y.ldif"] = Some (File w).
Proof. eexists. eexists. eexists. split; [vm_compute; reflexivity|]. split; [vm_compute; reflexivity|]. split; [vm_compute; reflexivity|]. split; [vm_compute; reflexivity|]. eexists. vm_compute. reflexivity. Qed.
Print Assumptions C54_dotdot_refuted.
(** The root entry of a tree whose directory is named x.dir is stored beside it. *)
Theorem C54_commit_root_refuted : let R := [S_ "x.dir"] in let f := [(R, Dir)] : fs in exists f' w,
  t_commit ascii_lower true f (S_ "u") (t_root R) = (f', Ok true) /\ stat f [S_ "x.ldif"] = None /\ stat f' [S_ "x.ldif"] = Some (File w).
Proof. cbv zeta. eexists. eexists. split; [vm_compute; reflexivity|]. split; vm_compute; reflexivity. Qed.
Print Assumptions C54_commit_root_refuted.

Lemma tx_named : named tx_two.
Proof.
  assert (H : forallb (fun x => forallb (fun n => negb (str_eqb n []) && forallb (fun c => negb (c =? 47) && negb (c =? 0)) n && negb (str_eqb n (S_ ".")) && negb (str_eqb n (S_ ".."))) (fst x)) tx_two = true) by (vm_compute; reflexivity).
  intros p n I. rewrite forallb_forall in H. specialize (H _ I). cbn [fst] in H. apply Forall_forall. intros s J. rewrite forallb_forall in H. specialize (H s J). apply andb_prop in H as (H & H4). apply andb_prop in H as (H & H3). apply andb_prop in H as (H1 & H2).
  destruct (part_lit s H2) as (P1 & P2). split; [intros ->; discriminate H1|]. split; [exact P1|]. split; [exact P2|]. split; intros ->; discriminate.
Qed.
Example C54_case : tree_root tx_R /\ named tx_two /\ in_place tx_R (t_root tx_R) /\ plain [cn "b"; cn "a"] /\ plain_rdn (cn "a:..\") /\ part (S_ "u") /\
  exists t, tx_lookup tx_two (t_root tx_R) [cn "b"; cn "a"] = Ok t /\ placed tx_R t /\ t_path t <> abs tx_R.
Proof.
  assert (Pl : plain [cn "b"; cn "a"]) by (repeat (apply Forall_cons; [apply plain_cn; reflexivity|]); apply Forall_nil).
  split; [exact tx_root|]. split; [exact tx_named|]. split; [exists []; split; [constructor|reflexivity]|]. split; [exact Pl|]. split; [apply plain_cn; reflexivity|]. split; [apply part_tx; reflexivity|].
  eexists. split; [vm_compute; reflexivity|]. split; [split; [vm_compute; reflexivity|exact Pl]|]. vm_compute. discriminate.
Qed.
