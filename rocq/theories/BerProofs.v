(** Proofs about integers, lengths, headers and the generic decode loop. *)
From Verif Require Import Base BaseFacts BerModel BerSpec.

Lemma lor_shiftl_byte v b : 0 <= b < 256 -> Z.lor (Z.shiftl v 8) b = 256 * v + b.
Proof.
  intros H.
  assert (L : Z.land (Z.shiftl v 8) b = 0).
  { apply Z.bits_inj'. intros n Hn. rewrite Z.land_spec, Z.bits_0.
    destruct (Z.ltb_spec n 8).
    - rewrite Z.shiftl_spec_low by lia. reflexivity.
    - replace (Z.testbit b n) with false; [apply andb_false_r|].
      symmetry. destruct (Z.eq_dec b 0) as [->|]; [apply Z.bits_0|].
      apply Z.bits_above_log2; [lia|].
      assert (Z.log2 b < 8); [|lia].
      apply Z.log2_lt_pow2; cbn; lia. }
  rewrite <- Z.lxor_lor by exact L. rewrite <- Z.add_nocarry_lxor by exact L.
  rewrite Z.shiftl_mul_pow2 by lia. change (2 ^ 8) with 256. lia.
Qed.

Lemma shiftr8 i : Z.shiftr i 8 = i / 256.
Proof. rewrite Z.shiftr_div_pow2 by lia. reflexivity. Qed.

Lemma land_80_byte b : negb (Z.land (b2z b) 0x80 =? 0) = (128 <=? b2z b).
Proof. destruct b; vm_compute; reflexivity. Qed.

Lemma unsigned_acc_fold r v :
  fold_left (fun v b => Z.lor (Z.shiftl v 8) (b2z b)) r v = unsigned_acc v r.
Proof.
  revert v; induction r as [|b r IH]; intros v; cbn [fold_left unsigned_acc]; [reflexivity|].
  rewrite lor_shiftl_byte by apply b2z_range. apply IH.
Qed.

Lemma unsigned_acc_shift r v : unsigned_acc v r = v * 256 ^ zlen r + unsigned_value r.
Proof.
  unfold unsigned_value. revert v. induction r as [|b r IH]; intros v; cbn [unsigned_acc].
  - rewrite zlen_nil. lia.
  - rewrite (IH (256 * v + b2z b)), (IH (256 * 0 + b2z b)).
    rewrite zlen_cons, Z.pow_add_r by (pose proof (zlen_nonneg r); lia). lia.
Qed.

Lemma unsigned_acc_app w v r : unsigned_acc v (w ++ r) = unsigned_acc (unsigned_acc v w) r.
Proof. revert v; induction w; intros; cbn; auto. Qed.

Lemma unsigned_value_snoc w c : unsigned_value (w ++ [c]) = 256 * unsigned_value w + b2z c.
Proof. unfold unsigned_value. rewrite unsigned_acc_app. reflexivity. Qed.

Lemma unsigned_value_range w : 0 <= unsigned_value w < 256 ^ zlen w.
Proof.
  induction w as [|c w IH] using rev_ind.
  - change (0 <= 0 < 1). lia.
  - rewrite unsigned_value_snoc, zlen_app. change (zlen [c]) with 1. rewrite Z.pow_add_r
      by (pose proof (zlen_nonneg w); lia).
    pose proof (b2z_range c). change (256 ^ 1) with 256. lia.
Qed.

Lemma ber2int_unsigned e : e <> [] -> ber2int false e = Ok (unsigned_value e).
Proof.
  intros H. destruct e as [|b r]; [congruence|].
  unfold ber2int, need. rewrite zlen_cons. pose proof (zlen_nonneg r).
  destruct (1 - (1 + zlen r) >? 0) eqn:E; [lia|]. cbn [bind].
  rewrite andb_false_r, unsigned_acc_fold. reflexivity.
Qed.

Lemma ber2int_signed e : e <> [] -> ber2int true e = Ok (twos_value e).
Proof.
  intros H. destruct e as [|b r]; [congruence|].
  unfold ber2int, need. rewrite zlen_cons. pose proof (zlen_nonneg r).
  destruct (1 - (1 + zlen r) >? 0) eqn:E; [lia|]. cbn [bind].
  rewrite andb_true_r, unsigned_acc_fold, land_80_byte.
  unfold twos_value. f_equal.
  unfold unsigned_value. cbn [unsigned_acc].
  destruct (128 <=? b2z b).
  - rewrite !(unsigned_acc_shift r), zlen_cons, Z.pow_add_r by lia. lia.
  - reflexivity.
Qed.

Lemma ber2int_empty s : ber2int s [] = Err EInsufficient.
Proof. reflexivity. Qed.

(** The loop of int2ber, signed. *)
Lemma twos_value_snoc w c : w <> [] -> twos_value (w ++ [c]) = 256 * twos_value w + b2z c.
Proof.
  intros H. destruct w as [|b w]; [congruence|].
  unfold twos_value. cbn [app]. change (b :: w ++ [c]) with ((b :: w) ++ [c]).
  rewrite unsigned_value_snoc, zlen_app. change (zlen [c]) with 1.
  destruct (128 <=? b2z b); [|reflexivity].
  rewrite Z.pow_add_r by (pose proof (zlen_nonneg (b :: w)); lia).
  change (256 ^ 1) with 256. lia.
Qed.

Lemma signed_loop_gen fuel i acc w :
  int2ber_loop fuel true i acc = Ok w ->
  exists w0, w = w0 ++ acc /\ w0 <> [] /\ twos_value w0 = i /\ shortest w0.
Proof.
  revert i acc w. induction fuel as [|f IH]; intros i acc w; cbn [int2ber_loop andb negb orb].
  - destruct (((i >? 127) || (i <? -128)) || false) eqn:E; [congruence|].
    intros [= <-]. exists [z2b (i mod 256)]. repeat split; try congruence.
    unfold twos_value, unsigned_value. cbn [unsigned_acc]. rewrite zlen_cons, zlen_nil.
    rewrite b2z_z2b, Z.mod_mod by lia. change (256 ^ (1 + 0)) with 256.
    destruct (Z.leb_spec 128 (i mod 256)); lia.
  - destruct (((i >? 127) || (i <? -128)) || false) eqn:E.
    + intros Hl. rewrite shiftr8 in Hl.
      apply IH in Hl as (w0 & -> & Hne & Hv & Hs).
      exists (w0 ++ [z2b (i mod 256)]).
      assert (Hc : b2z (z2b (i mod 256)) = i mod 256)
        by (rewrite b2z_z2b, Z.mod_mod; lia).
      split; [rewrite <- app_assoc; reflexivity|].
      split; [destruct w0; discriminate|].
      split.
      * rewrite twos_value_snoc by assumption. rewrite Hv, Hc. lia.
      * destruct w0 as [|b0 [|b1 w0]]; [congruence| |exact Hs].
        cbn [app shortest]. rewrite Hc.
        unfold twos_value, unsigned_value in Hv. cbn [unsigned_acc] in Hv.
        rewrite zlen_cons, zlen_nil in Hv. change (256 ^ (1 + 0)) with 256 in Hv.
        pose proof (b2z_range b0).
        split; intros (H0 & H1); rewrite H0 in Hv; cbn in Hv; lia.
    + intros [= <-]. exists [z2b (i mod 256)]. repeat split; try congruence.
      unfold twos_value, unsigned_value. cbn [unsigned_acc]. rewrite zlen_cons, zlen_nil.
      rewrite b2z_z2b, Z.mod_mod by lia. change (256 ^ (1 + 0)) with 256.
      destruct (Z.leb_spec 128 (i mod 256)); lia.
Qed.

Lemma log2_fuel fuel signed i acc :
  (signed = false -> 0 <= i) ->
  Z.abs i < 2 ^ Z.of_nat fuel -> exists w, int2ber_loop fuel signed i acc = Ok w.
Proof.
  revert i acc. induction fuel as [|f IH]; intros i acc Hs H; cbn [int2ber_loop].
  - change (2 ^ Z.of_nat 0) with 1 in H.
    destruct (_ || _) eqn:E; [lia|eauto].
  - destruct (_ || _) eqn:E; [|eauto].
    apply IH.
    + rewrite shiftr8. lia.
    + rewrite shiftr8. rewrite Nat2Z.inj_succ, Z.pow_succ_r in H by lia. lia.
Qed.

Lemma int2ber_total signed i :
  (signed = false -> 0 <= i) -> exists w, int2ber signed i = Ok w.
Proof.
  intros Hs. unfold int2ber. apply log2_fuel; [assumption|].
  rewrite Nat2Z.inj_add, Z2Nat.id by apply Z.log2_nonneg.
  destruct (Z.eq_dec i 0) as [->|]; [cbn; lia|].
  pose proof (Z.log2_spec (Z.abs i)). change (Z.of_nat 1) with 1.
  rewrite Z.add_1_r. lia.
Qed.

Lemma int2ber_signed i :
  exists w, int2ber true i = Ok w /\ twos_value w = i /\ shortest w.
Proof.
  destruct (int2ber_total true i) as (w & E); [discriminate|].
  exists w. split; [exact E|].
  apply signed_loop_gen in E as (w0 & -> & _ & ? & ?). rewrite app_nil_r. auto.
Qed.

Lemma shortest_nonempty w : shortest w -> w <> [].
Proof. destruct w; cbn; congruence. Qed.

Lemma int2ber_roundtrip i :
  exists w, int2ber true i = Ok w /\ ber2int true w = Ok i.
Proof.
  destruct (int2ber_signed i) as (w & E & V & M). exists w. split; [exact E|].
  rewrite ber2int_signed by (now apply shortest_nonempty). now rewrite V.
Qed.

Lemma int2ber_full i :
  exists w, int2ber true i = Ok w /\ ber2int true w = Ok i /\ twos_value w = i /\ shortest w.
Proof.
  destruct (int2ber_signed i) as (w & E & V & M). exists w. repeat split; auto.
  rewrite ber2int_signed by (now apply shortest_nonempty). now rewrite V.
Qed.

(** Unsigned: value and the smallest number of octets. *)
Lemma unsigned_loop_gen fuel i acc w :
  0 <= i ->
  int2ber_loop fuel false i acc = Ok w ->
  exists w0, w = w0 ++ acc /\ w0 <> [] /\ unsigned_value w0 = i /\
             (zlen w0 = 1 \/ 256 ^ (zlen w0 - 1) <= i).
Proof.
  revert i acc w. induction fuel as [|f IH]; intros i acc w Hi; cbn [int2ber_loop andb negb orb].
  - destruct (i >? 255) eqn:E; [congruence|].
    intros [= <-]. exists [z2b (i mod 256)]. repeat split; try congruence.
    + unfold unsigned_value. cbn [unsigned_acc].
      rewrite b2z_z2b, Z.mod_mod by lia. lia.
    + left. reflexivity.
  - destruct (i >? 255) eqn:E.
    + intros Hl. rewrite shiftr8 in Hl.
      apply IH in Hl as (w0 & -> & Hne & Hv & Hs); [|lia].
      exists (w0 ++ [z2b (i mod 256)]).
      assert (Hc : b2z (z2b (i mod 256)) = i mod 256)
        by (rewrite b2z_z2b, Z.mod_mod; lia).
      split; [rewrite <- app_assoc; reflexivity|].
      split; [destruct w0; discriminate|].
      split; [rewrite unsigned_value_snoc, Hv, Hc; lia|].
      right. rewrite zlen_app. change (zlen [z2b (i mod 256)]) with 1.
      destruct Hs as [Hs|Hs].
      * rewrite Hs. cbn. lia.
      * replace (zlen w0 + 1 - 1) with ((zlen w0 - 1) + 1) by lia.
        assert (0 < zlen w0) by (destruct w0; [congruence|rewrite zlen_cons; pose proof (zlen_nonneg w0); lia]).
        rewrite Z.pow_add_r by lia. change (256 ^ 1) with 256. lia.
    + intros [= <-]. exists [z2b (i mod 256)]. repeat split; try congruence.
      * unfold unsigned_value. cbn [unsigned_acc].
        rewrite b2z_z2b, Z.mod_mod by lia. lia.
      * left. reflexivity.
Qed.

Lemma int2ber_unsigned i :
  0 <= i ->
  exists w, int2ber false i = Ok w /\ w <> [] /\ unsigned_value w = i /\
            (zlen w = 1 \/ 256 ^ (zlen w - 1) <= i).
Proof.
  intros Hi. destruct (int2ber_total false i) as (w & E); [auto|].
  exists w. split; [exact E|].
  apply unsigned_loop_gen in E as (w0 & -> & H); [|lia]. rewrite app_nil_r. exact H.
Qed.

(** Lengths. *)
Lemma lor_80 l : 0 <= l <= 127 -> Z.lor 0x80 l = 128 + l.
Proof.
  intros H.
  assert (L : Z.land 0x80 l = 0).
  { apply Z.bits_inj'. intros n Hn. rewrite Z.land_spec, Z.bits_0.
    destruct (Z.eq_dec n 7) as [->|].
    - replace (Z.testbit l 7) with false; [apply andb_false_r|].
      symmetry. destruct (Z.eq_dec l 0) as [->|]; [apply Z.bits_0|].
      apply Z.bits_above_log2; [lia|].
      assert (Z.log2 l < 7); [|lia]. apply Z.log2_lt_pow2; cbn; lia.
    - change 0x80 with (2 ^ 7). rewrite Z.pow2_bits_false by lia. reflexivity. }
  rewrite <- Z.lxor_lor by exact L. rewrite <- Z.add_nocarry_lxor by exact L. lia.
Qed.

Lemma land_7f_signed b :
  128 <= b2z b -> Z.land (b2z b - 256) 0x7F = b2z b - 128.
Proof. destruct b; vm_compute; intros; try reflexivity; exfalso; auto. Qed.

Lemma land_80_signed b : 128 <= b2z b -> negb (Z.land (b2z b - 256) 0x80 =? 0) = true.
Proof. destruct b; vm_compute; intros; try reflexivity; exfalso; auto. Qed.

Lemma twos_single b :
  twos_value [b] = if 128 <=? b2z b then b2z b - 256 else b2z b.
Proof.
  unfold twos_value, unsigned_value. cbn [unsigned_acc]. rewrite zlen_cons, zlen_nil.
  destruct (128 <=? b2z b); reflexivity.
Qed.

(** What the length decoder does, in one equation. *)
Lemma berDecodeLength_spec pre b rest :
  berDecodeLength (pre ++ b :: rest) (zlen pre) =
  if b2z b <? 128 then Ok (b2z b, 1)
  else
    let n := b2z b - 128 in
    if zlen rest <? n then Err EInsufficient
    else if n =? 0 then Err EInsufficient
    else Ok (unsigned_value (ztake n rest), 1 + n).
Proof.
  unfold berDecodeLength.
  assert (T : ztake 1 (zdrop (zlen pre) (pre ++ b :: rest)) = [b])
    by (rewrite zdrop_app; reflexivity).
  rewrite T, ber2int_signed by congruence. cbn [bind]. rewrite twos_single.
  pose proof (b2z_range b) as Hb.
  destruct (Z.leb_spec 128 (b2z b)).
  - rewrite land_80_signed by lia. rewrite land_7f_signed by lia.
    destruct (Z.ltb_spec (b2z b) 128); [lia|]. cbn zeta.
    unfold need. rewrite zlen_app, zlen_cons.
    destruct (Z.ltb_spec (zlen rest) (b2z b - 128)).
    + destruct (_ >? 0) eqn:E; [reflexivity|lia].
    + destruct (_ >? 0) eqn:E; [lia|]. cbn [bind].
      replace (1 + (b2z b - 128) - 1) with (b2z b - 128) by lia.
      assert (D : zdrop (zlen pre + 1) (pre ++ b :: rest) = rest).
      { change (pre ++ b :: rest) with (pre ++ [b] ++ rest).
        rewrite app_assoc. replace (zlen pre + 1) with (zlen (pre ++ [b])).
        - apply zdrop_app.
        - rewrite zlen_app. reflexivity. }
      rewrite D.
      destruct (Z.eqb_spec (b2z b - 128) 0) as [E0|E0].
      * rewrite E0. reflexivity.
      * rewrite ber2int_unsigned; [reflexivity|].
        intros Hnil. apply (f_equal zlen) in Hnil.
        rewrite zlen_ztake, zlen_nil in Hnil by lia. lia.
  - assert (L : negb (Z.land (b2z b) 0x80 =? 0) = false) by (rewrite land_80_byte; lia).
    rewrite L. destruct (Z.ltb_spec (b2z b) 128); [reflexivity|lia].
Qed.

Lemma int2berlen_spec n w :
  int2berlen n = Ok w ->
  0 <= n /\ w <> [] /\
  forall pre rest, berDecodeLength (pre ++ w ++ rest) (zlen pre) = Ok (n, zlen w).
Proof.
  unfold int2berlen. destruct (Z.ltb_spec n 0); [congruence|].
  destruct (int2ber_unsigned n) as (e & E & Hne & Hv & Hmin); [lia|].
  rewrite E. cbn [bind].
  destruct (Z.leb_spec n 127).
  - intros [= <-]. split; [lia|]. split; [assumption|]. intros pre rest.
    destruct e as [|b [|c e]]; [congruence| |].
    + cbn [app]. rewrite berDecodeLength_spec.
      unfold unsigned_value in Hv. cbn [unsigned_acc] in Hv.
      destruct (Z.ltb_spec (b2z b) 128); [|lia]. rewrite zlen_cons, zlen_nil. f_equal. f_equal. lia.
    + exfalso. rewrite !zlen_cons in Hmin. pose proof (zlen_nonneg e).
      destruct Hmin as [|Hmin]; [lia|].
      replace (1 + (1 + zlen e) - 1) with (1 + zlen e) in Hmin by lia.
      rewrite Z.pow_add_r in Hmin by lia.
      assert (1 <= 256 ^ zlen e) by (apply (Z.pow_le_mono_r 256 0); lia).
      change (256 ^ 1) with 256 in Hmin. lia.
  - destruct (negb (zlen e >? 0)) eqn:E1; [congruence|].
    destruct (negb (zlen e <=? 127)) eqn:E2; [congruence|].
    intros Hw; apply Ok_inj in Hw; subst w. split; [lia|]. split; [congruence|]. intros pre rest.
    cbn [app]. rewrite berDecodeLength_spec.
    rewrite lor_80 by lia. rewrite b2z_z2b_small by lia.
    destruct (Z.ltb_spec (128 + zlen e) 128); [lia|]. cbn zeta.
    replace (128 + zlen e - 128) with (zlen e) by lia.
    rewrite zlen_app. pose proof (zlen_nonneg rest).
    destruct (Z.ltb_spec (zlen e + zlen rest) (zlen e)); [lia|].
    destruct (Z.eqb_spec (zlen e) 0); [lia|].
    rewrite ztake_app, Hv, zlen_cons. reflexivity.
Qed.

Lemma int2berlen_total n :
  0 <= n < 256 ^ 127 -> exists w, int2berlen n = Ok w.
Proof.
  intros H. unfold int2berlen. destruct (Z.ltb_spec n 0); [lia|].
  destruct (int2ber_unsigned n) as (e & E & Hne & Hv & Hmin); [lia|].
  rewrite E. cbn [bind]. destruct (n <=? 127); [eauto|].
  assert (0 < zlen e) by (destruct e; [congruence|rewrite zlen_cons; pose proof (zlen_nonneg e); lia]).
  destruct (negb (zlen e >? 0)) eqn:E1; [lia|].
  destruct (negb (zlen e <=? 127)) eqn:E2; [|eauto].
  exfalso. destruct Hmin as [|Hmin]; [lia|].
  assert (256 ^ 127 <= 256 ^ (zlen e - 1)) by (apply Z.pow_le_mono_r; lia). lia.
Qed.

(** int2berlen refuses exactly the lengths that need more than 127 octets. *)
Lemma int2berlen_refuses n :
  256 ^ 127 <= n -> int2berlen n = Err EAssert.
Proof.
  intros H. assert (P : 256 <= 256 ^ 127) by (apply (Z.pow_le_mono_r 256 1); lia).
  unfold int2berlen. destruct (Z.ltb_spec n 0); [lia|].
  destruct (int2ber_unsigned n) as (e & E & Hne & Hv & Hmin); [lia|].
  rewrite E. cbn [bind]. destruct (Z.leb_spec n 127); [lia|].
  assert (0 < zlen e) by (destruct e; [congruence|rewrite zlen_cons; pose proof (zlen_nonneg e); lia]).
  destruct (negb (zlen e >? 0)) eqn:E1; [lia|].
  destruct (negb (zlen e <=? 127)) eqn:E2; [reflexivity|].
  exfalso. pose proof (unsigned_value_range e) as R.
  assert (256 ^ zlen e <= 256 ^ 127) by (apply Z.pow_le_mono_r; lia). lia.
Qed.

(** Headers. *)
Lemma land_df i : 0 <= i < 256 ->
  Z.land i (Z.lor CLASS_MASK TAG_MASK) = if Z.testbit i 5 then i - 32 else i.
Proof.
  intros H. rewrite <- (b2z_z2b_small i) by exact H. generalize (z2b i) as b.
  intros b; destruct b; vm_compute; reflexivity.
Qed.

Lemma berHeader_tlv ident content w rest :
  0 <= ident < 256 ->
  tlv ident content = Ok w ->
  berHeader (w ++ rest) = Ok (Z.land ident (Z.lor CLASS_MASK TAG_MASK), content, zlen w).
Proof.
  intros Hid. unfold tlv. rewrite bind_ok. intros (l & El & [= <-]).
  apply int2berlen_spec in El as (Hn & Hl & Hdec).
  unfold berHeader, need. cbn [app]. rewrite <- app_assoc.
  rewrite zlen_cons, !zlen_app.
  pose proof (zlen_nonneg content). pose proof (zlen_nonneg rest).
  assert (0 < zlen l) by (destruct l; [congruence|rewrite zlen_cons; pose proof (zlen_nonneg l); lia]).
  destruct (_ >? 0) eqn:E; [lia|]. cbn [bind].
  change (ztake 1 (z2b ident :: l ++ content ++ rest)) with [z2b ident].
  rewrite ber2int_unsigned by congruence. cbn [bind].
  unfold unsigned_value. cbn [unsigned_acc]. rewrite b2z_z2b_small by lia.
  specialize (Hdec [z2b ident] (content ++ rest)).
  change (zlen [z2b ident]) with 1 in Hdec.
  cbn [app] in Hdec. rewrite Hdec. cbn [bind].
  destruct (1 + zlen l + zlen content - _ >? 0) eqn:E2; [lia|]. cbn [bind]. rewrite zlen_cons, zlen_app.
  assert (D : zdrop (1 + zlen l) (z2b ident :: l ++ content ++ rest) = content ++ rest).
  { change (z2b ident :: l ++ content ++ rest) with ((z2b ident :: l) ++ content ++ rest).
    replace (1 + zlen l) with (zlen (z2b ident :: l)) by (rewrite zlen_cons; lia).
    apply zdrop_app. }
  rewrite D, ztake_app. do 2 f_equal; lia.
Qed.

Lemma tlv_nonempty ident content w : tlv ident content = Ok w -> w <> [].
Proof. unfold tlv. rewrite bind_ok. intros (l & _ & [= <-]). congruence. Qed.

Lemma tlv_len2 ident content w : tlv ident content = Ok w -> 2 <= zlen w.
Proof.
  unfold tlv. rewrite bind_ok. intros (l & E & [= <-]).
  apply int2berlen_spec in E as (_ & Hl & _).
  rewrite zlen_cons, zlen_app. pose proof (zlen_nonneg content).
  destruct l; [congruence|]. rewrite zlen_cons. pose proof (zlen_nonneg l). lia.
Qed.

(** Bounds on any input. *)
Lemma berHeader_bounds m i c n :
  berHeader m = Ok (i, c, n) -> 2 <= n <= zlen m /\ 0 <= i < 256 /\ zlen c + 2 <= n
   /\ c = ztake (zlen c) (zdrop (n - zlen c) m).
Proof.
  unfold berHeader. rewrite bind_ok. intros (u0 & N & H).
  unfold need in N. destruct (2 - zlen m >? 0) eqn:E; [congruence|].
  destruct m as [|b0 [|b1 r]]; [discriminate E|discriminate E|].
  cbn [ztake firstn] in H. change (ztake 1 (b0 :: b1 :: r)) with [b0] in H.
  rewrite ber2int_unsigned in H by congruence. cbn [bind] in H.
  pose proof (berDecodeLength_spec [b0] b1 r) as D. change (zlen [b0]) with 1 in D.
  cbn [app] in D. rewrite D in H. clear D.
  unfold unsigned_value in H at 1. cbn [unsigned_acc] in H.
  pose proof (b2z_range b0). pose proof (b2z_range b1).
  assert (Hi : 0 <= Z.land (256 * 0 + b2z b0) (Z.lor CLASS_MASK TAG_MASK) < 256).
  { replace (256 * 0 + b2z b0) with (b2z b0) by lia.
    rewrite land_df by apply b2z_range. 
    destruct (Z.testbit (b2z b0) 5) eqn:T; [|lia].
    destruct b0; vm_compute in T; try discriminate T; vm_compute; split; congruence. }
  assert (K : forall len lenlen, 1 <= lenlen -> 0 <= len ->
     (do _ <- need (b0 :: b1 :: r) (1 + lenlen + len);
      Ok (Z.land (256 * 0 + b2z b0) (Z.lor CLASS_MASK TAG_MASK),
          ztake len (zdrop (1 + lenlen) (b0 :: b1 :: r)), 1 + lenlen + len)) = Ok (i, c, n) ->
     2 <= n <= zlen (b0 :: b1 :: r) /\ 0 <= i < 256 /\ zlen c + 2 <= n
     /\ c = ztake (zlen c) (zdrop (n - zlen c) (b0 :: b1 :: r))).
  { intros len lenlen Hll Hlen. rewrite bind_ok. intros (u1 & Nd & HH). apply Ok_inj in HH. inversion HH; subst i c n; clear HH.
    unfold need in Nd. destruct (1 + lenlen + len - _ >? 0) eqn:E3; [congruence|].
    rewrite zlen_ztake by (rewrite zlen_zdrop; lia).
    repeat split; try lia. f_equal. f_equal. lia. }
  destruct (b2z b1 <? 128) eqn:E1.
  - cbn [bind] in H. apply K in H; [exact H|lia|lia].
  - cbn zeta in H. destruct (zlen r <? b2z b1 - 128); [cbn in H; congruence|].
    destruct (b2z b1 - 128 =? 0) eqn:E4; [cbn in H; congruence|]. cbn [bind] in H.
    apply K in H; [exact H|lia|].
    fold (unsigned_value (ztake (b2z b1 - 128) r)). pose proof (unsigned_value_range (ztake (b2z b1 - 128) r)). lia.
Qed.

(** A header that is read does not change when bytes are appended. *)
Lemma need_mono m x n : need m n = Ok tt -> need (m ++ x) n = Ok tt.
Proof.
  unfold need. rewrite zlen_app. pose proof (zlen_nonneg x).
  destruct (n - zlen m >? 0) eqn:E; [congruence|].
  destruct (n - (zlen m + zlen x) >? 0) eqn:E2; [lia|reflexivity].
Qed.

(** A one-equation description of the header, used for prefixes and extensions. *)
Definition header_of (m : bytes) : res (Z * bytes * Z) :=
  match m with
  | b0 :: b1 :: r =>
      let i := Z.land (b2z b0) (Z.lor CLASS_MASK TAG_MASK) in
      if b2z b1 <? 128 then
        if zlen r <? b2z b1 then Err EInsufficient
        else Ok (i, ztake (b2z b1) r, 2 + b2z b1)
      else
        let k := b2z b1 - 128 in
        if zlen r <? k then Err EInsufficient
        else if k =? 0 then Err EInsufficient
        else
          let len := unsigned_value (ztake k r) in
          if zlen r <? k + len then Err EInsufficient
          else Ok (i, ztake len (zdrop k r), 2 + k + len)
  | _ => Err EInsufficient
  end.

Lemma zdrop_cons {A} n (x : A) l : 0 <= n -> zdrop (1 + n) (x :: l) = zdrop n l.
Proof. intros. unfold zdrop. rewrite Z2Nat.inj_add by lia. reflexivity. Qed.

Lemma berHeader_eq m : berHeader m = header_of m.
Proof.
  unfold berHeader, need.
  destruct m as [|b0 [|b1 r]]; [reflexivity|reflexivity|].
  rewrite !zlen_cons. pose proof (zlen_nonneg r).
  destruct (2 - _ >? 0) eqn:E; [lia|]. cbn [bind].
  change (ztake 1 (b0 :: b1 :: r)) with [b0].
  rewrite ber2int_unsigned by congruence. cbn [bind].
  pose proof (berDecodeLength_spec [b0] b1 r) as D. change (zlen [b0]) with 1 in D.
  cbn [app] in D. rewrite D. clear D.
  change (unsigned_value [b0]) with (b2z b0). clear E.
  unfold header_of. cbn zeta.
  pose proof (b2z_range b1).
  destruct (b2z b1 <? 128) eqn:E1.
  - cbn [bind]. destruct (Z.ltb_spec (zlen r) (b2z b1)).
    + destruct (_ >? 0) eqn:E2; [reflexivity|lia].
    + destruct (_ >? 0) eqn:E2; [lia|]. cbn [bind]. reflexivity.
  - destruct (Z.ltb_spec (zlen r) (b2z b1 - 128)); [reflexivity|].
    destruct (Z.eqb_spec (b2z b1 - 128) 0); [reflexivity|]. cbn [bind].
    set (len := unsigned_value _).
    assert (0 <= len) by (unfold len; pose proof (unsigned_value_range (ztake (b2z b1 - 128) r)); lia).
    destruct (Z.ltb_spec (zlen r) (b2z b1 - 128 + len)).
    + destruct (_ >? 0) eqn:E2; [reflexivity|lia].
    + destruct (_ >? 0) eqn:E2; [lia|]. cbn [bind].
      f_equal. f_equal; [f_equal|lia].
      rewrite zdrop_cons by lia.
      replace (1 + (b2z b1 - 128)) with (1 + (b2z b1 - 128)) by lia.
      rewrite zdrop_cons by lia. reflexivity.
Qed.

Lemma berHeader_ext m x i c n :
  berHeader m = Ok (i, c, n) -> berHeader (m ++ x) = Ok (i, c, n).
Proof.
  rewrite !berHeader_eq. destruct m as [|b0 [|b1 r]]; cbn [header_of app]; try congruence.
  cbn zeta. pose proof (zlen_nonneg x). pose proof (b2z_range b1). rewrite zlen_app.
  destruct (b2z b1 <? 128) eqn:E1.
  - destruct (Z.ltb_spec (zlen r) (b2z b1)); [congruence|].
    destruct (Z.ltb_spec (zlen r + zlen x) (b2z b1)); [lia|].
    rewrite ztake_app_le by lia. auto.
  - destruct (Z.ltb_spec (zlen r) (b2z b1 - 128)); [congruence|].
    destruct (Z.ltb_spec (zlen r + zlen x) (b2z b1 - 128)); [lia|].
    destruct (Z.eqb_spec (b2z b1 - 128) 0); [congruence|].
    rewrite ztake_app_le by lia.
    set (len := unsigned_value _).
    assert (0 <= len) by (unfold len; pose proof (unsigned_value_range (ztake (b2z b1 - 128) r)); lia).
    destruct (Z.ltb_spec (zlen r) (b2z b1 - 128 + len)); [congruence|].
    destruct (Z.ltb_spec (zlen r + zlen x) (b2z b1 - 128 + len)); [lia|].
    rewrite zdrop_app_le by lia. rewrite ztake_app_le by (rewrite zlen_zdrop; lia). auto.
Qed.

(** The header never fails in any other way than by asking for more data. *)
Lemma berHeader_err m e : berHeader m = Err e -> e = EInsufficient.
Proof.
  rewrite berHeader_eq. destruct m as [|b0 [|b1 r]]; cbn [header_of]; try congruence.
  cbn zeta. repeat (destruct (_ : bool); try congruence).
Qed.

(** Proper prefixes of an element have no header. *)
Lemma berHeader_prefix ident content w p :
  0 <= ident < 256 ->
  tlv ident content = Ok w -> proper_prefix p w -> berHeader p = Err EInsufficient.
Proof.
  intros Hid T (t & Ht & ->).
  pose proof (berHeader_tlv ident content (p ++ t) [] Hid T) as H.
  rewrite app_nil_r in H.
  destruct (berHeader p) as [[[i c] n]|e] eqn:E.
  - exfalso. pose proof (berHeader_bounds _ _ _ _ E) as (B & _).
    apply (berHeader_ext _ t) in E. rewrite E in H. inversion H; subst.
    rewrite zlen_app in *. destruct t; [congruence|]. rewrite zlen_cons in *.
    pose proof (zlen_nonneg t). lia.
  - f_equal. eapply berHeader_err; eauto.
Qed.

Section DecodeFacts.
  Context {ctx cls obj : Type}.
  Variable lookup : ctx -> Z -> option cls.
  Variable inh : ctx -> ctx.
  Variable fromBER : cls -> Z -> bytes -> ctx -> res obj.

  Notation dec := (berDecodeObject lookup inh fromBER).
  Notation decs := (berDecodeMultiple lookup inh fromBER).

  Lemma dec_bounds c m o n : m <> [] -> dec c m = Ok (o, n) -> 2 <= n <= zlen m.
  Proof.
    intros Hm. unfold berDecodeObject. destruct m as [|b m]; [congruence|].
    rewrite bind_ok. intros ([[i m2] used] & H & E).
    apply berHeader_bounds in H as (H & _).
    destruct (lookup c i).
    - apply bind_ok in E as (r & _ & [= <- <-]). exact H.
    - inversion E; subst. exact H.
  Qed.

  Lemma dec_ext c m x o n :
    m <> [] -> dec c m = Ok (o, n) -> dec c (m ++ x) = Ok (o, n).
  Proof.
    intros Hm. unfold berDecodeObject. destruct m as [|b m]; [congruence|]. cbn [app].
    rewrite bind_ok. intros ([[i m2] used] & H & E).
    apply (berHeader_ext _ x) in H. cbn [app] in H. rewrite H. cbn [bind]. exact E.
  Qed.

  (** Whatever a complete element's class does with it does not depend on what follows. *)
  Lemma dec_ext_err c m x e :
    m <> [] -> (forall e', berHeader m <> Err e') -> dec c m = Err e -> dec c (m ++ x) = Err e.
  Proof.
    intros Hm Hh. unfold berDecodeObject. destruct m as [|b m]; [congruence|]. cbn [app].
    destruct (berHeader (b :: m)) as [[[i m2] used]|e0] eqn:H; [|exfalso; eapply Hh; eauto].
    apply (berHeader_ext _ x) in H. cbn [app] in H. rewrite H. cbn [bind]. auto.
  Qed.

  Lemma decs_fuel fuel fuel' c m :
    (length m <= fuel)%nat -> (length m <= fuel')%nat ->
    berDecodeMultiple_loop lookup inh fromBER fuel c m
    = berDecodeMultiple_loop lookup inh fromBER fuel' c m.
  Proof.
    revert fuel' m. induction fuel as [|f IH]; intros f' m H H'.
    - destruct m; [|cbn in H; lia]. destruct f'; reflexivity.
    - destruct m as [|b m]; [destruct f'; reflexivity|].
      destruct f' as [|f']; [cbn in H'; lia|].
      cbn [berDecodeMultiple_loop].
      destruct (dec c (b :: m)) as [[o n]|e] eqn:E; [|reflexivity].
      cbn [bind]. apply dec_bounds in E; [|congruence].
      destruct (negb (n <=? zlen (b :: m))); [reflexivity|].
      rewrite (IH f'); [reflexivity| |].
      + apply Nat2Z.inj_le. unfold zdrop. rewrite skipn_length. unfold zlen in E.
        cbn [length] in *. lia.
      + unfold zdrop. rewrite skipn_length. unfold zlen in E. cbn [length] in *. lia.
  Qed.

  (** The loop never runs out of fuel of its own. *)
  Lemma decs_no_fuel c m :
    (forall k i x d, fromBER k i x d <> Err EFuel) -> decs m c <> Err EFuel.
  Proof.
    intros HF. unfold berDecodeMultiple.
    assert (G : forall fuel m, (length m <= fuel)%nat ->
              berDecodeMultiple_loop lookup inh fromBER fuel c m <> Err EFuel).
    { induction fuel as [|f IH]; intros l H.
      - destruct l; [cbn; congruence|cbn in H; lia].
      - destruct l as [|b l]; [cbn; congruence|]. cbn [berDecodeMultiple_loop].
        destruct (dec c (b :: l)) as [[o n]|e] eqn:E.
        + cbn [bind]. apply dec_bounds in E; [|congruence].
          destruct (negb (n <=? zlen (b :: l))); [congruence|].
          specialize (IH (zdrop n (b :: l))).
          destruct (berDecodeMultiple_loop lookup inh fromBER f c (zdrop n (b :: l))) eqn:E2;
            cbn [bind]; [congruence|].
          intros X. apply IH; [|congruence].
          unfold zdrop. rewrite skipn_length. unfold zlen in E. cbn [length] in *. lia.
        + cbn [bind]. unfold berDecodeObject in E.
          destruct (berHeader (b :: l)) as [[[i m2] used]|e0] eqn:H0; cbn [bind] in E.
          * destruct (lookup c i); [|congruence].
            destruct (fromBER c0 i m2 (inh c)) eqn:F; cbn [bind] in E; [congruence|].
            inversion E; subst. intros [= ->]. eapply HF; eauto.
          * inversion E; subst. apply berHeader_err in H0. subst. congruence. }
    apply G. lia.
  Qed.

  Lemma decs_nil c : decs [] c = Ok [].
  Proof. reflexivity. Qed.

  (** Reading one element off the front. *)
  Lemma decs_cons c ident content w rest k :
    0 <= ident < 256 ->
    tlv ident content = Ok w ->
    lookup c (Z.land ident (Z.lor CLASS_MASK TAG_MASK)) = Some k ->
    decs (w ++ rest) c =
    (do r <- fromBER k (Z.land ident (Z.lor CLASS_MASK TAG_MASK)) content (inh c);
     do l <- decs rest c; Ok (r :: l)).
  Proof.
    intros Hid T L.
    pose proof (tlv_nonempty _ _ _ T) as Hne.
    pose proof (berHeader_tlv _ _ _ rest Hid T) as H.
    unfold berDecodeMultiple.
    destruct (w ++ rest) as [|b m] eqn:E; [destruct w; cbn in E; congruence|].
    cbn [length]. cbn [berDecodeMultiple_loop]. unfold berDecodeObject. rewrite H. cbn [bind].
    rewrite L.
    destruct (fromBER k _ content (inh c)); cbn [bind]; [|reflexivity].
    rewrite <- E, zlen_app. pose proof (zlen_nonneg rest).
    destruct (negb _) eqn:N; [lia|]. clear N.
    rewrite zdrop_app.
    rewrite (decs_fuel (length m) (length rest)); [reflexivity| |lia].
    apply tlv_len2 in T. unfold zlen in T.
    assert (length (w ++ rest) = S (length m)) by (rewrite E; reflexivity).
    rewrite app_length in *. lia.
  Qed.

  Lemma dec_tlv c ident content w rest k :
    0 <= ident < 256 ->
    tlv ident content = Ok w ->
    lookup c (Z.land ident (Z.lor CLASS_MASK TAG_MASK)) = Some k ->
    dec c (w ++ rest) =
    (do r <- fromBER k (Z.land ident (Z.lor CLASS_MASK TAG_MASK)) content (inh c);
     Ok (Some r, zlen w)).
  Proof.
    intros Hid T L.
    pose proof (tlv_nonempty _ _ _ T) as Hne.
    pose proof (berHeader_tlv _ _ _ rest Hid T) as H.
    unfold berDecodeObject.
    destruct (w ++ rest) as [|b m] eqn:E; [destruct w; cbn in E; congruence|].
    rewrite H. cbn [bind]. rewrite L. reflexivity.
  Qed.

  Lemma dec_prefix c ident content w p :
    0 <= ident < 256 ->
    tlv ident content = Ok w -> proper_prefix p w -> p <> [] -> dec c p = Err EInsufficient.
  Proof.
    intros Hid T P Hp. unfold berDecodeObject. destruct p; [congruence|].
    rewrite (berHeader_prefix _ _ _ _ Hid T P). reflexivity.
  Qed.
End DecodeFacts.
