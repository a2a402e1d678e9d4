(** Round trips of UTF-8. *)
From Verif Require Import BaseFacts Utf8Model.
Ltac Zify.zify_post_hook ::= Z.to_euclidean_division_equations.

Lemma mod256 a : 0 <= a < 256 -> a mod 256 = a. Proof. intros. now rewrite Z.mod_small. Qed.

Lemma decode_char c b r t : utf8_char c = Ok b -> utf8_decode r = Ok t -> utf8_decode (b ++ r) = Ok (c :: t).
Proof.
  intros H R. unfold utf8_char in H.
  destruct (Z.ltb_spec c 0); [discriminate|].
  destruct (Z.ltb_spec c 0x80).
  { apply Ok_inj in H. subst b. cbn [app utf8_decode]. rewrite b2z_z2b_small by lia.
    destruct (Z.ltb_spec c 0x80); [|lia]. now rewrite R. }
  destruct (Z.ltb_spec c 0x800).
  { apply Ok_inj in H. subst b. cbn [app utf8_decode]. unfold cont. rewrite !b2z_z2b_small by lia.
    repeat match goal with |- context [if ?x then _ else _] => destruct x eqn:?; try lia end.
    rewrite R. cbn [bind]. f_equal. f_equal. lia. }
  destruct ((0xD800 <=? c) && (c <=? 0xDFFF)) eqn:S; [discriminate|].
  destruct (Z.ltb_spec c 0x10000).
  { apply Ok_inj in H. subst b. cbn [app utf8_decode]. unfold cont. rewrite !b2z_z2b_small by lia.
    replace ((0xE0 + c / 4096 - 0xE0) * 4096 + (0x80 + c / 64 mod 64 - 0x80) * 64 + (0x80 + c mod 64 - 0x80)) with c by lia.
    repeat match goal with |- context [if ?x then _ else _] => destruct x eqn:?; try lia end.
    now rewrite R. }
  destruct (Z.ltb_spec c 0x110000); [|discriminate].
  apply Ok_inj in H. subst b. cbn [app utf8_decode]. unfold cont. rewrite !b2z_z2b_small by lia.
  replace ((0xF0 + c / 262144 - 0xF0) * 262144 + (0x80 + c / 4096 mod 64 - 0x80) * 4096 + (0x80 + c / 64 mod 64 - 0x80) * 64 + (0x80 + c mod 64 - 0x80)) with c by lia.
  repeat match goal with |- context [if ?x then _ else _] => destruct x eqn:?; try lia end.
  now rewrite R.
Qed.

Lemma decode_encode s b : utf8_encode s = Ok b -> utf8_decode b = Ok s.
Proof.
  revert b. induction s as [|c s IH]; intros b H; cbn [utf8_encode] in H; [apply Ok_inj in H; now subst b|].
  apply bind_ok in H as (x & X & H). apply bind_ok in H as (t & T & H). apply Ok_inj in H. subst b.
  apply decode_char; auto.
Qed.

Lemma z2b_eq b z : b2z b = z -> z2b z = b. Proof. intros <-. apply z2b_b2z. Qed.

Lemma encode_decode : forall n b s, (length b <= n)%nat -> utf8_decode b = Ok s -> utf8_encode s = Ok b.
Proof.
  induction n as [|n IH]; intros b s L H.
  { destruct b; [|cbn in L; lia]. cbn in H. apply Ok_inj in H. now subst s. }
  destruct b as [|b0 r]; cbn [utf8_decode] in H; [apply Ok_inj in H; now subst s|].
  cbn [length] in L. pose proof (b2z_range b0).
  destruct (Z.ltb_spec (b2z b0) 0x80).
  { apply bind_ok in H as (t & T & H). apply Ok_inj in H. subst s. apply IH in T; [|lia].
    cbn [utf8_encode]. unfold utf8_char.
    repeat match goal with |- context [if ?x then _ else _] => destruct x eqn:?; try lia end.
    rewrite T. cbn [bind]. now rewrite z2b_b2z. }
  destruct ((0xC2 <=? b2z b0) && (b2z b0 <=? 0xDF)) eqn:E2.
  { destruct r as [|b1 r]; [discriminate|]. cbn [length] in L. unfold cont in H. pose proof (b2z_range b1).
    destruct ((0x80 <=? b2z b1) && _) eqn:E1 in H; [|discriminate].
    apply bind_ok in H as (t & T & H). apply Ok_inj in H. subst s. apply IH in T; [|lia].
    cbn [utf8_encode]. unfold utf8_char.
    repeat match goal with |- context [if ?x then _ else _] => destruct x eqn:?; try lia end.
    rewrite T. cbn [bind app]. f_equal. f_equal; [|f_equal]; apply z2b_eq; lia. }
  destruct ((0xE0 <=? b2z b0) && (b2z b0 <=? 0xEF)) eqn:E3.
  { destruct r as [|b1 [|b2 r]]; try discriminate. cbn [length] in L. unfold cont in H.
    pose proof (b2z_range b1). pose proof (b2z_range b2). cbv zeta in H.
    match type of H with (if ?x then _ else _) = _ => destruct x eqn:E1; [|discriminate] end.
    apply bind_ok in H as (t & T & H). apply Ok_inj in H. subst s. apply IH in T; [|lia].
    cbn [utf8_encode]. set (c := _ + _ + _) in *. unfold utf8_char.
    assert (0x800 <= c < 0x10000) by (subst c; lia).
    repeat match goal with |- context [if ?x then _ else _] => destruct x eqn:?; try lia end.
    rewrite T. cbn [bind app]. f_equal. f_equal; [|f_equal; [|f_equal]]; apply z2b_eq; subst c; lia. }
  destruct ((0xF0 <=? b2z b0) && (b2z b0 <=? 0xF4)) eqn:E4; [|discriminate].
  destruct r as [|b1 [|b2 [|b3 r]]]; try discriminate. cbn [length] in L. unfold cont in H.
  pose proof (b2z_range b1). pose proof (b2z_range b2). pose proof (b2z_range b3). cbv zeta in H.
  match type of H with (if ?x then _ else _) = _ => destruct x eqn:E1; [|discriminate] end.
  apply bind_ok in H as (t & T & H). apply Ok_inj in H. subst s. apply IH in T; [|lia].
  cbn [utf8_encode]. set (c := _ + _ + _ + _) in *. unfold utf8_char.
  assert (0x10000 <= c < 0x110000) by (subst c; lia).
  repeat match goal with |- context [if ?x then _ else _] => destruct x eqn:?; try lia end.
  rewrite T. cbn [bind app]. f_equal. f_equal; [|f_equal; [|f_equal; [|f_equal]]]; apply z2b_eq; subst c; lia.
Qed.

Lemma utf8_decode_encode b s : utf8_decode b = Ok s -> utf8_encode s = Ok b.
Proof. apply encode_decode with (n := length b). lia. Qed.

Lemma utf8_iff b s : utf8_decode b = Ok s <-> utf8_encode s = Ok b.
Proof. split; [apply utf8_decode_encode|apply decode_encode]. Qed.

Lemma encode_inj s t b : utf8_encode s = Ok b -> utf8_encode t = Ok b -> s = t.
Proof. intros A C. apply decode_encode in A, C. congruence. Qed.

Lemma pyval_eqb_spec a b : reflect (a = b) (pyval_eqb a b).
Proof.
  destruct a as [s|s], b as [t|t]; cbn [pyval_eqb]; try (constructor; congruence).
  - destruct (str_eqb_spec s t); constructor; congruence.
  - destruct (bytes_eqb_spec s t); constructor; congruence.
Qed.
Lemma pyval_eqb_refl a : pyval_eqb a a = true.
Proof. destruct (pyval_eqb_spec a a); congruence. Qed.
Lemma pyval_eqb_eq a b : pyval_eqb a b = true <-> a = b.
Proof. destruct (pyval_eqb_spec a b); split; congruence. Qed.

(** Unicode scalar values can be encoded. *)
Lemma utf8_encode_total s :
  Forall (fun c => 0 <= c < 0x110000 /\ ~ (0xD800 <= c <= 0xDFFF)) s -> exists b, utf8_encode s = Ok b.
Proof.
  induction 1 as [|c s H _ (b & IH)]; [now exists []|]. cbn [utf8_encode]. rewrite IH.
  unfold utf8_char. repeat match goal with |- context [if ?x then _ else _] => destruct x eqn:?; try lia end; cbn [bind]; eauto.
Qed.
Lemma utf8_encode_ascii s : Forall (fun c => 0 <= c < 128) s -> utf8_encode s = Ok (map z2b s).
Proof.
  induction 1 as [|c s H _ IH]; [reflexivity|]. cbn [utf8_encode map]. rewrite IH.
  unfold utf8_char. destruct (Z.ltb_spec c 0); [lia|]. destruct (Z.ltb_spec c 0x80); [reflexivity|lia].
Qed.
Lemma utf8_encode_app s t : utf8_encode (s ++ t) = (do a <- utf8_encode s; do b <- utf8_encode t; Ok (a ++ b)).
Proof.
  induction s as [|c s IH]; cbn [app utf8_encode].
  - cbn [bind]. now destruct (utf8_encode t).
  - destruct (utf8_char c); cbn [bind]; [|reflexivity]. rewrite IH.
    destruct (utf8_encode s); cbn [bind]; [|reflexivity]. destruct (utf8_encode t); cbn [bind]; [|reflexivity].
    now rewrite app_assoc.
Qed.
Ltac Zify.zify_post_hook ::= idtac.

Lemma utf8_encode_valid s b : utf8_encode s = Ok b -> Forall (fun c => 0 <= c < 0x110000 /\ ~ (0xD800 <= c <= 0xDFFF)) s.
Proof.
  revert b. induction s as [|c s IH]; intros b H; [constructor|]. cbn [utf8_encode] in H.
  destruct (utf8_char c) as [x|] eqn:C; [|discriminate]. cbn [bind] in H. destruct (utf8_encode s) as [y|]; [|discriminate].
  constructor; [|eapply IH; reflexivity]. clear -C. unfold utf8_char in C.
  repeat match type of C with context [if ?x then _ else _] => destruct x eqn:?; try discriminate end; lia.
Qed.
