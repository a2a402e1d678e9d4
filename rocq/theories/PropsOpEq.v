(** C82: comparing entries and operations. *)
From Verif Require Import Base BaseFacts Utf8Model DnModel DnSpec EntryModel EntrySpec UtilModel LdifModel OpEqModel OpEqSpec OpEqProofs PropsEntry.

(** Equal entries whose DNs are spelled alike have the same LDIF and the same hash, and so have the operations that
    add them. Keys and values may be text and bytes in any mixture. Missing: DNs spelled differently, where it is false. *)
Theorem C82_entries_alike_partial : forall (lower : str -> str) (oc : bool) (hs : str -> Z) (hb : bytes -> Z) (a b : entry),
  well_formed lower a -> well_formed lower b -> e_dn a = e_dn b -> entry_eq lower a b = Ok true ->
  entry_toWire lower oc a = entry_toWire lower oc b /\ entry_hash hs a = entry_hash hs b /\
  add_asLDIF lower oc a = add_asLDIF lower oc b /\ add_hash lower oc hb a = add_hash lower oc hb b.
Proof.
  intros lower oc hs hb a b Wa Wb D E. split; [now apply equal_toWire|]. split; [unfold entry_hash; now rewrite D|].
  split; [now apply equal_add|]. unfold add_hash. now rewrite (equal_add lower oc a b).
Qed.
Print Assumptions C82_entries_alike_partial.
(** Two modifications of one entry compare equal exactly if they make the same changes in the same order; then, with DNs
    spelled alike, they have the same LDIF and the same hash. *)
Theorem C82_modify_alike_partial : forall (lower : str -> str) (hb : bytes -> Z) (d d' : dn) (ms ns : list delta),
  Forall (fun m => NoDup (d_vals m)) ms -> Forall (fun m => NoDup (d_vals m)) ns ->
  (modify_eq lower d d' ms ns = true <-> dn_eqb lower d d' = true /\ Forall2 same_change ms ns) /\
  (modify_eq lower d d' ms ns = true -> d = d' ->
   modify_asLDIF d ms = modify_asLDIF d' ns /\ modify_hash hb d ms = modify_hash hb d' ns).
Proof.
  intros lower hb d d' ms ns Fm Fn. split; [apply modify_eq_iff|]. intros E <-. apply modify_eq_iff in E as (_ & E).
  split; [now apply same_modify_ldif|]. unfold modify_hash. now rewrite (same_modify_ldif d ms ns Fm Fn E).
Qed.
Print Assumptions C82_modify_alike_partial.
Theorem C82_delete_alike_partial : forall (lower : str -> str) (hs : str -> Z) (d d' : dn),
  delete_eq lower d d' = true -> dn_text d = dn_text d' ->
  delete_asLDIF d = delete_asLDIF d' /\ delete_hash hs d = delete_hash hs d'.
Proof. intros lower hs d d' _ T. unfold delete_asLDIF, delete_hash, dn_hash. now rewrite T. Qed.
Print Assumptions C82_delete_alike_partial.
(** Equal modifications, of equal entries, succeed alike, and when they succeed the entries are equal again. *)
Theorem C82_effect_partial : forall (lower : str -> str) (kt vt : bool) (d d' : dn) (ms ns : list delta) (e f : entry),
  entry_ok lower kt vt e -> entry_ok lower kt vt f -> Forall (delta_ok kt vt) ms -> Forall (delta_ok kt vt) ns ->
  modify_eq lower d d' ms ns = true -> entry_eq lower e f = Ok true ->
  exists e' f' r, patch_all lower ms e = (e', r) /\ patch_all lower ns f = (f', r) /\
    ((r = Ok tt /\ entry_eq lower e' f' = Ok true) \/ r = Err EKey).
Proof. intros lower kt vt d d' ms ns e f Oe Of Dm Dn Q E. apply modify_eq_iff in Q as (_ & S). exact (equal_effect lower kt vt ms ns e f Oe Of Dm Dn S E). Qed.
Print Assumptions C82_effect_partial.

(** False: equal things hash alike. A DN in other case makes entries and operations equal, their hashes differ with every
    hash that tells texts and octets apart. *)
Definition c82_dn (s : string) : dn := [[mkAtv (S_ "cn") (S_ s)]].
Definition c82_e (s : string) : entry := mkEntry (c82_dn s) [mkSet (bv "cn") [bv "x"]].
Theorem C82_hash_refuted : exists (a b : entry) (ms : list delta),
  entry_eq ascii_lower a b = Ok true /\ modify_eq ascii_lower (e_dn a) (e_dn b) ms ms = true /\ delete_eq ascii_lower (e_dn a) (e_dn b) = true /\
  forall (hs : str -> Z) (hb : bytes -> Z), (forall s t, hs s = hs t -> s = t) -> (forall s t, hb s = hb t -> s = t) ->
  entry_hash hs a <> entry_hash hs b /\ delete_hash hs (e_dn a) <> delete_hash hs (e_dn b) /\
  (forall x y, add_hash ascii_lower true hb a = Ok x -> add_hash ascii_lower true hb b = Ok y -> x <> y) /\
  (forall x y, modify_hash hb (e_dn a) ms = Ok x -> modify_hash hb (e_dn b) ms = Ok y -> x <> y).
Proof.
  exists (c82_e "A"), (c82_e "a"), [mkDelta MAdd (bv "sn") [bv "y"]].
  split; [vm_compute; reflexivity|]. split; [vm_compute; reflexivity|]. split; [vm_compute; reflexivity|].
  intros hs hb Is Ib.
  assert (T : dn_text (c82_dn "A") <> dn_text (c82_dn "a")) by (vm_compute; discriminate).
  split; [intros H; apply T, Is, H|]. split; [intros H; apply T, Is, H|]. split.
  - assert (A : exists p q, add_asLDIF ascii_lower true (c82_e "A") = Ok p /\ add_asLDIF ascii_lower true (c82_e "a") = Ok q /\ p <> q).
    { eexists _, _. split; [vm_compute; reflexivity|]. split; [vm_compute; reflexivity|]. discriminate. }
    destruct A as (p & q & P & Q & N). intros x y. unfold add_hash. rewrite P, Q. cbn [bind]. intros X Y H. apply Ok_inj in X, Y. apply N, Ib. congruence.
  - assert (A : exists p q, modify_asLDIF (c82_dn "A") [mkDelta MAdd (bv "sn") [bv "y"]] = Ok p /\ modify_asLDIF (c82_dn "a") [mkDelta MAdd (bv "sn") [bv "y"]] = Ok q /\ p <> q).
    { eexists _, _. split; [vm_compute; reflexivity|]. split; [vm_compute; reflexivity|]. discriminate. }
    destruct A as (p & q & P & Q & N). intros x y. unfold modify_hash. cbn [e_dn c82_e]. rewrite P, Q. cbn [bind]. intros X Y H. apply Ok_inj in X, Y. apply N, Ib. congruence.
Qed.
Print Assumptions C82_hash_refuted.
(** False: equal modifications always have the same effect. When they are refused, what they have changed by then depends on
    the order in which the values are visited. *)
Theorem C82_refused_effect_refuted : exists (e e' f' : entry) (m n : delta),
  modify_eq ascii_lower (e_dn e) (e_dn e) [m] [n] = true /\
  patch_all ascii_lower [m] e = (e', Err EKey) /\ patch_all ascii_lower [n] e = (f', Err EKey) /\
  entry_eq ascii_lower e' f' = Ok false.
Proof.
  exists (c82_e "A"). eexists _, _. exists (mkDelta MDelete (bv "cn") [bv "x"; bv "y"]), (mkDelta MDelete (bv "cn") [bv "y"; bv "x"]).
  split; [vm_compute; reflexivity|]. split; [vm_compute; reflexivity|]. split; [vm_compute; reflexivity|]. vm_compute. reflexivity.
Qed.
Print Assumptions C82_refused_effect_refuted.

Definition c82_a : entry := mkEntry (c82_dn "A") [mkSet (sv "objectClass") [sv "top"; bv "top"; bv "a"]; mkSet (bv "sn") [bv "x"; bv "y"]; mkSet (sv "cn") [sv "A"]].
Definition c82_b : entry := mkEntry (c82_dn "A") [mkSet (sv "cn") [sv "A"]; mkSet (sv "objectClass") [bv "a"; bv "top"; sv "top"]; mkSet (bv "sn") [bv "y"; bv "x"]].
Example C82_case : well_formed ascii_lower c82_a /\ well_formed ascii_lower c82_b /\ c82_a <> c82_b /\ entry_eq ascii_lower c82_a c82_b = Ok true /\
  exists t, entry_toWire ascii_lower true c82_a = Ok t.
Proof.
  split; [split; vm_compute; repeat constructor; cbn; intuition congruence|]. split; [split; vm_compute; repeat constructor; cbn; intuition congruence|].
  split; [discriminate|]. split; [vm_compute; reflexivity|]. eexists. vm_compute. reflexivity.
Qed.
Definition c82_ms : list delta := [mkDelta MAdd (bv "sn") [bv "u"; bv "v"]; mkDelta MDelete (bv "sn") [bv "v"; bv "x"]; mkDelta MReplace (bv "cn") [bv "p"; bv "q"]].
Definition c82_ns : list delta := [mkDelta MAdd (bv "sn") [bv "v"; bv "u"]; mkDelta MDelete (bv "sn") [bv "x"; bv "v"]; mkDelta MReplace (bv "cn") [bv "q"; bv "p"]].
Definition c82_s : entry := mkEntry (c82_dn "A") [mkSet (bv "sn") [bv "x"; bv "y"]].
Definition c82_t : entry := mkEntry (c82_dn "a") [mkSet (bv "sn") [bv "y"; bv "x"]].
Example C82_case_effect : entry_ok ascii_lower false false c82_s /\ entry_ok ascii_lower false false c82_t /\
  Forall (delta_ok false false) c82_ms /\ Forall (delta_ok false false) c82_ns /\ modify_eq ascii_lower (c82_dn "A") (c82_dn "a") c82_ms c82_ns = true /\
  entry_eq ascii_lower c82_s c82_t = Ok true /\ exists e' f', patch_all ascii_lower c82_ms c82_s = (e', Ok tt) /\ patch_all ascii_lower c82_ns c82_t = (f', Ok tt) /\ e' <> f'.
Proof.
  assert (T : forall x, x = "x" \/ x = "y" \/ x = "u" \/ x = "v" \/ x = "p" \/ x = "q" \/ x = "sn" \/ x = "cn" -> typed false (bv x)).
  { intros x H. repeat (destruct H as [->|H]); [..|subst x]; eexists; vm_compute; reflexivity. }
  assert (D : forall k x y, x <> y -> typed false (bv k) -> typed false (bv x) -> typed false (bv y) -> bv x <> bv y -> forall c, delta_ok false false (mkDelta c (bv k) [bv x; bv y])).
  { intros k x y _ Tk Tx Ty N c. split; [exact Tk|]. split; [exact (Forall_cons _ Tx (Forall_cons _ Ty (Forall_nil _)))|]. constructor; [intros [H|[]]; congruence|constructor; [intros []|constructor]]. }
  assert (E : forall d x y, typed false (bv x) -> typed false (bv y) -> bv x <> bv y -> entry_ok ascii_lower false false (mkEntry d [mkSet (bv "sn") [bv x; bv y]])).
  { intros d x y Tx Ty N. split; [|vm_compute; repeat constructor; tauto]. apply Forall_cons; [|constructor]. split; [apply T; tauto|]. split; [exact (Forall_cons _ Tx (Forall_cons _ Ty (Forall_nil _)))|].
    constructor; [intros [H|[]]; congruence|constructor; [intros []|constructor]]. }
  split; [apply E; try (apply T; tauto); discriminate|]. split; [apply E; try (apply T; tauto); discriminate|].
  split; [repeat (apply Forall_cons; [apply D; try (apply T; tauto); discriminate|]); constructor|].
  split; [repeat (apply Forall_cons; [apply D; try (apply T; tauto); discriminate|]); constructor|].
  split; [vm_compute; reflexivity|]. split; [vm_compute; reflexivity|]. eexists _, _. split; [vm_compute; reflexivity|]. split; [vm_compute; reflexivity|]. discriminate.
Qed.
