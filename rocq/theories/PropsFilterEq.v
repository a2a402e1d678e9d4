(** C81: comparing filters. *)
From Coq Require Import Permutation.
From Verif Require Import Base BaseFacts Utf8Model DnModel DnSpec EntryModel LdapModel LdapSpec LdapProofs MatchModel MatchSpec
  FilterEqModel FilterEqSpec FilterEqProofs PropsEntry PropsMatch.

(** Two filters that compare equal have the same parts up to order, except that an and may be an or. *)
Theorem C81_equal_parts : forall f g : filter,
  py_eq (filter_obj f) (filter_obj g) = Ok true -> confused f g.
Proof. intros f g. apply eq_confused. Qed.
Print Assumptions C81_equal_parts.
(** So equal filters in which, outside nots, only and or only or occurs select the same entries. Missing: filters
    with both, where it is false. *)
Theorem C81_equal_select_partial : forall (lower : str -> str) (kt : bool) (ord : Prop) (e : entry) (f g : filter),
  keys_ok lower kt e -> (ord -> bytes_values e) -> plain ord f -> plain ord g ->
  (no_or f /\ no_or g) \/ (no_and f /\ no_and g) ->
  py_eq (filter_obj f) (filter_obj g) = Ok true -> matches lower e f = matches lower e g.
Proof. exact equal_matches. Qed.
Print Assumptions C81_equal_select_partial.
(** An and of single filters and an and, or or, of any filters compare equal exactly if they have the same
    parts in some order. *)
Theorem C81_flat_exact : forall (f g : filter) (l m : list filter),
  members f = Some l -> members g = Some m -> Forall single l -> (exists w, toWire (filter_obj f) = Ok w) ->
  py_eq (filter_obj f) (filter_obj g) = Ok true <-> Permutation l m.
Proof. exact flat_exact. Qed.
Print Assumptions C81_flat_exact.
(** The parts in another order always compare equal, however deep they are. *)
Theorem C81_order_partial : forall (f g : filter) (l m : list filter),
  members f = Some l -> members g = Some m -> Permutation l m -> (exists w, toWire (filter_obj f) = Ok w) ->
  py_eq (filter_obj f) (filter_obj g) = Ok true.
Proof. exact eq_members. Qed.
Print Assumptions C81_order_partial.
(** Every filter equals itself. *)
Theorem C81_reflexive : forall f : filter, (exists w, toWire (filter_obj f) = Ok w) ->
  py_eq (filter_obj f) (filter_obj f) = Ok true.
Proof. intros f K. apply obj_eq_refl; [exact K|constructor]. Qed.
Print Assumptions C81_reflexive.
(** Other filters compare equal to exactly themselves, and hash alike. *)
Theorem C81_single_exact : forall (hash : bytes -> Z) (f g : filter), single f ->
  (exists w, toWire (filter_obj f) = Ok w) -> (exists w, toWire (filter_obj g) = Ok w) ->
  exists r h, py_eq (filter_obj f) (filter_obj g) = Ok r /\ (r = true <-> f = g) /\
    py_hash hash (filter_obj f) = Ok h /\ (r = true -> py_hash hash (filter_obj g) = Ok h).
Proof.
  intros hash f g S K K'. destruct (eq_single f g S K K') as (r & E & R). exists r, (hash (fw f)).
  assert (H : py_hash hash (filter_obj f) = Ok (hash (fw f))) by (unfold py_hash; rewrite (single_obj f S), (fw_ok f K); reflexivity).
  split; [exact E|]. split; [exact R|]. split; [exact H|]. intros T. apply R in T. now subst g.
Qed.
Print Assumptions C81_single_exact.

(** False: an and and an or of the same parts compare equal, although an entry is selected by one only. *)
Definition c81_a : filter := FEq (B "cn") (B "foo").
Definition c81_b : filter := FEq (B "sn") (B "x").
Theorem C81_and_or_refuted : exists (e : entry) (f g : filter),
  py_eq (filter_obj f) (filter_obj g) = Ok true /\
  matches ascii_lower e f = Ok false /\ matches ascii_lower e g = Ok true.
Proof. exists c27_e, (FAnd [c81_a; c81_b]), (FOr [c81_a; c81_b]). repeat split; vm_compute; reflexivity. Qed.
Print Assumptions C81_and_or_refuted.
(** False: a filter reordered below the top compares unequal, when that changes the order of the parts above, *)
Definition c81_c (s : string) : filter := FPresent (B s).
Theorem C81_order_refuted : exists f g : filter,
  reordered f g /\ py_eq (filter_obj f) (filter_obj g) = Ok false.
Proof.
  exists (FAnd [FOr [c81_c "a"; c81_c "z"]; FOr [c81_c "m"; c81_c "n"]]), (FAnd [FOr [c81_c "z"; c81_c "a"]; FOr [c81_c "m"; c81_c "n"]]).
  split; [|vm_compute; reflexivity]. eapply re_and; [apply Permutation_refl|].
  apply Forall2_cons; [|apply Forall2_cons; [apply re_same|constructor]]. eapply re_or; [apply perm_swap|].
  apply Forall2_cons; [apply re_same|apply Forall2_cons; [apply re_same|constructor]].
Qed.
Print Assumptions C81_order_refuted.
(** and below a not always. *)
Theorem C81_not_refuted : forall f g : filter, f <> g -> reordered f g ->
  (exists w, toWire (filter_obj (FNot f)) = Ok w) -> (exists w, toWire (filter_obj (FNot g)) = Ok w) ->
  py_eq (filter_obj (FNot f)) (filter_obj (FNot g)) = Ok false /\
  (forall lower e, sat lower e (FNot f) <-> sat lower e (FNot g)).
Proof.
  intros f g N R K K'. split.
  - destruct (eq_single (FNot f) (FNot g) eq_refl K K') as ([|] & E & Q); [|exact E]. exfalso. apply N. assert (FNot f = FNot g) by (apply Q; reflexivity). congruence.
  - intros lower e. cbn [sat]. rewrite (sat_reordered lower e f g R). reflexivity.
Qed.
Print Assumptions C81_not_refuted.
(** False: comparison always answers. An and compared with another filter of as many octets raises TypeError,
    compared the other way round it is unequal. *)
Theorem C81_raises_refuted : exists f g : filter,
  py_eq (filter_obj f) (filter_obj g) = Err EType /\ py_eq (filter_obj g) (filter_obj f) = Ok false.
Proof. exists (FAnd [c81_c "ab"]), (c81_c "abcd"). split; vm_compute; reflexivity. Qed.
Print Assumptions C81_raises_refuted.
(** False: != is the opposite of ==. It asks whether the filters differ at all, so a reordered filter is both equal and unequal. *)
Theorem C81_ne : forall f g : filter, (exists w, toWire (filter_obj f) = Ok w) -> (exists w, toWire (filter_obj g) = Ok w) ->
  exists r, py_ne (filter_obj f) (filter_obj g) = Ok r /\ (r = true <-> f <> g).
Proof. exact ne_iff. Qed.
Print Assumptions C81_ne.
Theorem C81_ne_refuted : exists f g : filter,
  py_eq (filter_obj f) (filter_obj g) = Ok true /\ py_ne (filter_obj f) (filter_obj g) = Ok true.
Proof. exists (FAnd [c81_a; c81_b]), (FAnd [c81_b; c81_a]). split; vm_compute; reflexivity. Qed.
Print Assumptions C81_ne_refuted.
(** False: filters can be put in a set or dictionary. Every and and every or is unhashable. *)
Theorem C81_unhashable_refuted : forall (hash : bytes -> Z) (f : filter) (l : list filter),
  members f = Some l -> py_hash hash (filter_obj f) = Err EType.
Proof. intros hash f l M. destruct (members_obj f l M) as (k & t & _ & E & _). unfold py_hash. now rewrite E. Qed.
Print Assumptions C81_unhashable_refuted.

Definition c81_f : filter := FAnd [FEq (B "cn") (B "FOO"); FAnd [FPresent (B "sn"); FNot (FOr [FPresent (B "a"); FPresent (B "b")])]].
Definition c81_g : filter := FAnd [FAnd [FNot (FOr [FPresent (B "a"); FPresent (B "b")]); FPresent (B "sn")]; FEq (B "cn") (B "FOO")].
Example C81_case : c81_f <> c81_g /\ py_eq (filter_obj c81_f) (filter_obj c81_g) = Ok true /\ no_or c81_f /\ no_or c81_g /\
  plain False c81_f /\ plain False c81_g /\ py_eq (filter_obj (FAnd [c81_a])) (filter_obj (FAnd [c81_b])) = Ok false /\
  (exists l, members c81_f = Some l /\ exists w, toWire (filter_obj c81_f) = Ok w).
Proof.
  split; [discriminate|]. split; [vm_compute; reflexivity|]. split; [cbn; tauto|]. split; [cbn; tauto|].
  split; [cbn; repeat split; eexists; vm_compute; reflexivity|]. split; [cbn; repeat split; eexists; vm_compute; reflexivity|].
  split; [vm_compute; reflexivity|]. eexists. split; [reflexivity|]. eexists. vm_compute. reflexivity.
Qed.
Example C81_case_not : reordered (FAnd [c81_a; c81_b]) (FAnd [c81_b; c81_a]) /\ FAnd [c81_a; c81_b] <> FAnd [c81_b; c81_a] /\
  (exists w, toWire (filter_obj (FNot (FAnd [c81_a; c81_b]))) = Ok w) /\ (exists w, toWire (filter_obj (FNot (FAnd [c81_b; c81_a]))) = Ok w).
Proof.
  split; [eapply re_and; [apply perm_swap|]; apply Forall2_cons; [apply re_same|apply Forall2_cons; [apply re_same|constructor]]|].
  split; [discriminate|]. split; eexists; vm_compute; reflexivity.
Qed.
