(** Proofs about the small modules. *)
From Coq Require Import Decimal DecimalZ DecimalFacts.
From Verif Require Import Base BaseFacts Utf8Model Utf8Proofs DnModel DnSpec DnProofs UtilModel UtilSpec.

(** ** Decimals *)
Lemma str_uint_str u : str_uint (uint_str u) = Some u.
Proof. induction u; cbn; try rewrite IHu; reflexivity. Qed.
Lemma uint_str_digits u : Forall (fun c => 48 <= c <= 57) (uint_str u).
Proof. induction u; cbn; constructor; auto; lia. Qed.
Lemma to_int_nonneg z : 0 <= z -> exists u, Z.to_int z = Pos u /\ u <> Nil.
Proof.
  intros H. destruct z as [|p|p]; [| |lia]; cbn.
  - eexists. split; [reflexivity|discriminate].
  - eexists. split; [reflexivity|]. intros E. pose proof (DecimalPos.Unsigned.of_to p) as O. unfold Pos.to_uint in *. rewrite E in O. cbn in O. discriminate.
Qed.
Lemma to_int_neg z : z < 0 -> exists u, Z.to_int z = Neg u /\ u <> Nil.
Proof.
  intros H. destruct z as [|p|p]; [lia|lia|]; cbn. eexists. split; [reflexivity|]. intros E.
  pose proof (DecimalPos.Unsigned.of_to p) as O. unfold Pos.to_uint in *. rewrite E in O. cbn in O. discriminate.
Qed.
Lemma dec_nonneg z : 0 <= z -> Forall (fun c => 48 <= c <= 57) (dec z) /\ dec z <> [] /\ exists u, dec z = uint_str u /\ Z.of_uint u = z.
Proof.
  intros H. unfold dec. destruct (to_int_nonneg z H) as (u & E & N). rewrite E. split; [apply uint_str_digits|]. split.
  - destruct u; [congruence|..]; discriminate.
  - exists u. split; [reflexivity|]. pose proof (DecimalZ.of_to z) as O. now rewrite E in O.
Qed.
Lemma py_int_plain io c r : c <> 45 -> py_int io (c :: r) = match str_uint (c :: r) with Some u => Ok (Z.of_int (Decimal.Pos u)) | None => io (c :: r) end.
Proof. intros N. unfold py_int. destruct c as [|p|p]; [reflexivity| |reflexivity]. do 6 (destruct p; try reflexivity). now contradiction N. Qed.
Lemma py_int_dec io z : py_int io (dec z) = Ok z.
Proof.
  destruct (Z_lt_le_dec z 0) as [H|H].
  - unfold dec. destruct (to_int_neg z H) as (u & E & N). pose proof (DecimalZ.of_to z) as O. rewrite E in *.
    assert (exists c r, uint_str u = c :: r) as (c & r & Eu) by (destruct u; [congruence|..]; cbn; eauto).
    unfold py_int. rewrite Eu. cbn [tl]. rewrite <- Eu, str_uint_str. now rewrite O.
  - destruct (dec_nonneg z H) as (F & N & u & E & O). destruct (dec z) as [|c r] eqn:D; [congruence|].
    inversion F as [|? ? F1 _]; subst. assert (S : str_uint (c :: r) = Some u) by (rewrite E; apply str_uint_str).
    rewrite py_int_plain by lia. rewrite S. now cbn.
Qed.
Lemma dec_inj a b : dec a = dec b -> a = b.
Proof. intros E. pose proof (py_int_dec (fun _ => Err EValue) a) as P. rewrite E, py_int_dec in P. now apply Ok_inj in P. Qed.

(** ** Free numbers (C61) *)
Section Guess.
  Variable used : Z -> bool.
  Notation ng := (next_guess used).
  Lemma ng_step f mn mx last : ng (S f) mn mx last =
    (let mn' := if used last then last else mn in let mx' := if used last then mx else Some last in
     match (match mx' with Some m => if (m =? mn') || (m =? mn' + 1) then Some m else None | None => None end) with
     | Some m => Ok m
     | None => ng f mn' mx' (((match mx' with Some m => m | None => mn' + 1000 end) + mn') / 2)
     end).
  Proof. reflexivity. Qed.
  Lemma ng_used f mn m last : used last = true ->
    ng (S f) mn (Some m) last = if (m =? last) || (m =? last + 1) then Ok m else ng f last (Some m) ((m + last) / 2).
  Proof. intros U. rewrite ng_step, U. cbv beta iota zeta. destruct ((m =? last) || (m =? last + 1)); reflexivity. Qed.
  Lemma ng_used_none f mn last : used last = true -> ng (S f) mn None last = ng f last None ((last + 1000 + last) / 2).
  Proof. intros U. rewrite ng_step, U. reflexivity. Qed.
  Lemma ng_free f mn mx last : used last = false ->
    ng (S f) mn mx last = if (last =? mn) || (last =? mn + 1) then Ok last else ng f mn (Some last) ((last + mn) / 2).
  Proof. intros U. rewrite ng_step, U. cbv beta iota zeta. destruct ((last =? mn) || (last =? mn + 1)); reflexivity. Qed.
  Lemma mono f : forall mn mx last r, ng f mn mx last = Ok r -> ng (S f) mn mx last = Ok r.
  Proof.
    induction f as [|f IH]; intros mn mx last r; [discriminate|]. rewrite (ng_step (S f)), ng_step. cbv zeta.
    destruct (match (if used last then mx else Some last) with Some m => _ | None => None end); [auto|]. apply IH.
  Qed.
  Lemma mono_le f g mn mx last r : (f <= g)%nat -> ng f mn mx last = Ok r -> ng g mn mx last = Ok r.
  Proof. induction 1; [auto|]. intros H1. apply mono. auto. Qed.

  (** A free number above a used one. *)
  Lemma guess_some n : forall mn m, (Z.to_nat (m - mn) <= n)%nat -> used mn = true -> used m = false -> mn + 1 < m ->
    exists f r, ng f mn (Some m) ((m + mn) / 2) = Ok r /\ used r = false /\ used (r - 1) = true /\ mn < r <= m.
  Proof.
    induction n as [|n IH]; intros mn m Hn Um Ux L; [lia|]. set (g := (m + mn) / 2).
    assert (G : mn < g < m) by (unfold g; pose proof (Z.div_mod (m + mn) 2 ltac:(lia)); pose proof (Z.mod_pos_bound (m + mn) 2 ltac:(lia)); lia).
    clearbody g. destruct (used g) eqn:Ug.
    - destruct (Z.eq_dec m (g + 1)) as [->|N1].
      + exists 1%nat, (g + 1). rewrite ng_used by exact Ug. rewrite (Z.eqb_refl (g + 1)), orb_true_r. split; [reflexivity|].
        split; [exact Ux|]. split; [now replace (g + 1 - 1) with g by lia|lia].
      + destruct (IH g m ltac:(lia) Ug Ux ltac:(lia)) as (f & r & E & R1 & R2 & R3). exists (S f), r. rewrite ng_used by exact Ug.
        destruct (Z.eqb_spec m g); [lia|]. destruct (Z.eqb_spec m (g + 1)); [lia|]. cbn [orb]. split; [exact E|]. split; [exact R1|]. split; [exact R2|lia].
    - destruct (Z.eq_dec g (mn + 1)) as [E1|N1].
      + exists 1%nat, g. rewrite ng_free by exact Ug. rewrite <- E1, Z.eqb_refl, orb_true_r. split; [reflexivity|]. split; [exact Ug|].
        split; [now replace (g - 1) with mn by lia|lia].
      + destruct (IH mn g ltac:(lia) Um Ug ltac:(lia)) as (f & r & E & R1 & R2 & R3). exists (S f), r. rewrite ng_free by exact Ug.
        destruct (Z.eqb_spec g mn); [lia|]. destruct (Z.eqb_spec g (mn + 1)); [lia|]. cbn [orb]. split; [exact E|]. split; [exact R1|]. split; [exact R2|lia].
  Qed.
  Lemma guess_none K n : (forall k, K < k -> used k = false) -> forall mn, (Z.to_nat (K + 1 - mn) <= n)%nat -> used mn = true ->
    exists f r, ng f mn None ((mn + 1000 + mn) / 2) = Ok r /\ used r = false /\ used (r - 1) = true /\ mn < r.
  Proof.
    intros HK. induction n as [|n IH]; intros mn Hn Um.
    - assert (used mn = false) by (apply HK; lia). congruence.
    - set (g := (mn + 1000 + mn) / 2). assert (G : g = mn + 500).
      { unfold g. replace (mn + 1000 + mn) with ((mn + 500) * 2) by lia. apply Z.div_mul. lia. }
      destruct (used g) eqn:Ug.
      + destruct (IH g ltac:(lia) Ug) as (f & r & E & R1 & R2 & R3). exists (S f), r. rewrite ng_used_none by exact Ug. split; [exact E|]. split; [exact R1|]. split; [exact R2|lia].
      + destruct (guess_some _ mn g (le_n _) Um Ug ltac:(lia)) as (f & r & E & R1 & R2 & R3). exists (S f), r. rewrite ng_free by exact Ug.
        destruct (Z.eqb_spec g mn); [lia|]. destruct (Z.eqb_spec g (mn + 1)); [lia|]. cbn [orb]. split; [exact E|]. split; [exact R1|]. split; [exact R2|lia].
  Qed.
  Lemma free_number K mn mx : (forall k, K < k -> used k = false) ->
    let m0 := match mn with Some m => m | None => 0 end in
    match mx with Some m => m0 < m /\ used m = false | None => True end ->
    exists f r, (forall g, (f <= g)%nat -> start_guessing used g mn mx = Ok r) /\ first_free used m0 r /\
      match mx with Some m => r <= m | None => True end.
  Proof.
    intros HK m0 MX. unfold start_guessing. fold m0. destruct (used m0) eqn:U.
    - destruct mx as [m|].
      + destruct MX as (L & Um). destruct (Z.eq_dec m (m0 + 1)) as [->|N].
        * exists 1%nat, (m0 + 1). split; [|split; [|lia]].
          -- intros g Hg. apply (mono_le 1); [exact Hg|]. rewrite ng_used by exact U. now rewrite (Z.eqb_refl (m0 + 1)), orb_true_r.
          -- split; [exact Um|]. split; [lia|]. right. now replace (m0 + 1 - 1) with m0 by lia.
        * destruct (guess_some _ m0 m (le_n _) U Um ltac:(lia)) as (f & r & E & R1 & R2 & R3). exists (S f), r. split; [|split; [|lia]].
          -- intros g Hg. apply (mono_le (S f)); [exact Hg|]. rewrite ng_used by exact U.
             destruct (Z.eqb_spec m m0); [lia|]. destruct (Z.eqb_spec m (m0 + 1)); [lia|]. exact E.
          -- split; [exact R1|]. split; [lia|now right].
      + destruct (guess_none K _ HK m0 (le_n _) U) as (f & r & E & R1 & R2 & R3). exists (S f), r. split; [|split; [|exact I]].
        -- intros g Hg. apply (mono_le (S f)); [exact Hg|]. rewrite ng_used_none by exact U. exact E.
        -- split; [exact R1|]. split; [lia|now right].
    - exists 1%nat, m0. split; [|split].
      + intros g Hg. apply (mono_le 1); [exact Hg|]. rewrite ng_free by exact U. now rewrite Z.eqb_refl.
      + split; [exact U|]. split; [lia|now left].
      + destruct mx as [m|]; [lia|exact I].
  Qed.
End Guess.

(** ** Netmasks (C62) *)
Ltac bits32 k := do 32 (destruct k as [|k]; [vm_compute; reflexivity|]); exfalso; lia.
Lemma mask_step k : 0 <= k < 32 -> Z.lor (Z.shiftr (mask k) 1) (2 ^ 31) = mask (k + 1).
Proof.
  intros H. rewrite <- (Z2Nat.id k) by lia. assert (L : (Z.to_nat k < 32)%nat) by lia. remember (Z.to_nat k) as n. clear - L. bits32 n.
Qed.
Lemma aton_loop_mask j : forall k, 0 <= k -> k + Z.of_nat j <= 32 -> aton_loop j (mask k) = mask (k + Z.of_nat j).
Proof.
  induction j as [|j IH]; intros k H L; cbn [aton_loop]; [f_equal; lia|]. rewrite mask_step by lia. rewrite IH by lia. f_equal. lia.
Qed.
Lemma aton_loop_full j : aton_loop j (mask 32) = mask 32.
Proof. induction j as [|j IH]; [reflexivity|]. cbn [aton_loop]. exact IH. Qed.
Lemma aton_loop_app i : forall j n, aton_loop (i + j) n = aton_loop j (aton_loop i n).
Proof. induction i; intros j n; cbn; auto. Qed.
Lemma aton_numbits_mask n : aton_numbits n = mask (Z.max 0 (Z.min n 32)).
Proof.
  unfold aton_numbits. change 0 with (mask 0) at 1. destruct (Z_le_gt_dec n 32) as [L|G].
  - rewrite aton_loop_mask by lia. f_equal. lia.
  - replace (Z.to_nat n) with (32 + (Z.to_nat n - 32))%nat by lia. rewrite aton_loop_app, aton_loop_mask by lia. change (0 + Z.of_nat 32) with 32.
    rewrite aton_loop_full. f_equal. lia.
Qed.
Lemma land_top k b : 0 <= b < 2 ^ Z.of_nat (S k) -> (Z.land b (2 ^ Z.of_nat k) =? 0) = (b <? 2 ^ Z.of_nat k).
Proof.
  intros H. pose proof (Z.pow_pos_nonneg 2 (Z.of_nat k) ltac:(lia) ltac:(lia)) as P.
  assert (D : 2 ^ Z.of_nat (S k) = 2 * 2 ^ Z.of_nat k) by (rewrite Nat2Z.inj_succ, Z.pow_succ_r by lia; reflexivity).
  destruct (Z.ltb_spec b (2 ^ Z.of_nat k)) as [L|L].
  - apply Z.eqb_eq. apply Z.bits_inj'. intros n Hn. rewrite Z.land_spec, Z.bits_0, Z.pow2_bits_eqb by lia.
    destruct (Z.eqb_spec (Z.of_nat k) n) as [<-|]; [|apply andb_false_r]. rewrite andb_true_r.
    destruct (Z.eq_dec b 0) as [->|]; [apply Z.bits_0|]. apply Z.bits_above_log2; [lia|]. apply Z.log2_lt_pow2; lia.
  - apply Z.eqb_neq. intros E. assert (T : Z.testbit (Z.land b (2 ^ Z.of_nat k)) (Z.of_nat k) = true).
    { rewrite Z.land_spec, Z.pow2_bits_true by lia. rewrite andb_true_r.
      assert (Z.log2 b = Z.of_nat k) as <- by (apply Z.log2_unique; [lia|]; rewrite Z.pow_succ_r by lia; lia). apply Z.bit_log2. lia. }
    rewrite E, Z.bits_0 in T. discriminate.
Qed.
Lemma numbits_loop_spec k : forall b n, 0 <= b < 2 ^ Z.of_nat k ->
  (exists j, 0 <= j <= Z.of_nat k /\ b = 2 ^ Z.of_nat k - 2 ^ (Z.of_nat k - j) /\ numbits_loop k b n = Ok (n + j)) \/
  ((forall j, 0 <= j <= Z.of_nat k -> b <> 2 ^ Z.of_nat k - 2 ^ (Z.of_nat k - j)) /\ numbits_loop k b n = Err (EUser 2)).
Proof.
  induction k as [|k IH]; intros b n H.
  - left. exists 0. cbn in *. split; [lia|]. split; [lia|]. f_equal. lia.
  - assert (D : 2 ^ Z.of_nat (S k) = 2 * 2 ^ Z.of_nat k) by (rewrite Nat2Z.inj_succ, Z.pow_succ_r by lia; reflexivity).
    pose proof (Z.pow_pos_nonneg 2 (Z.of_nat k) ltac:(lia) ltac:(lia)) as P.
    cbn [numbits_loop]. destruct (Z.eqb_spec b 0) as [->|Nb].
    + left. exists 0. split; [lia|]. split; [rewrite Z.sub_0_r; lia|]. f_equal. lia.
    + rewrite land_top by exact H. destruct (Z.ltb_spec b (2 ^ Z.of_nat k)) as [L|L].
      * right. split; [|reflexivity]. intros j Hj E. assert (j <> 0) by (intros ->; rewrite Z.sub_0_r in E; lia).
        assert (2 ^ (Z.of_nat (S k) - j) <= 2 ^ Z.of_nat k) by (apply Z.pow_le_mono_r; lia). lia.
      * destruct (IH (b - 2 ^ Z.of_nat k) (n + 1) ltac:(lia)) as [(j & Hj & E & R)|(N & R)].
        -- left. exists (j + 1). split; [lia|]. split.
           ++ replace (Z.of_nat (S k) - (j + 1)) with (Z.of_nat k - j) by lia. lia.
           ++ rewrite R. f_equal. lia.
        -- right. split; [|exact R]. intros j Hj E. destruct (Z.eq_dec j 0) as [->|]; [rewrite Z.sub_0_r in E; lia|].
           apply (N (j - 1)); [lia|]. replace (Z.of_nat k - (j - 1)) with (Z.of_nat (S k) - j) by lia. lia.
Qed.
Lemma mask_inj a b : 0 <= a <= 32 -> 0 <= b <= 32 -> mask a = mask b -> a = b.
Proof.
  unfold mask. intros A Bb E. assert (E2 : 2 ^ (32 - a) = 2 ^ (32 - b)) by lia. apply Z.pow_inj_r in E2; lia.
Qed.
Lemma mask_range n : 0 <= n <= 32 -> 0 <= mask n < 2 ^ 32.
Proof.
  intros H. unfold mask. pose proof (Z.pow_pos_nonneg 2 (32 - n) ltac:(lia) ltac:(lia)). assert (2 ^ (32 - n) <= 2 ^ 32) by (apply Z.pow_le_mono_r; lia). lia.
Qed.
Lemma numbits_spec b : 0 <= b < 2 ^ 32 ->
  (forall n, 0 <= n <= 32 -> (numbits b = Ok n <-> b = mask n)) /\
  ((forall n, 0 <= n <= 32 -> b <> mask n) -> numbits b = Err (EUser 2)).
Proof.
  intros H. unfold numbits. destruct (numbits_loop_spec 32 b 0 H) as [(j & Hj & E & R)|(N & R)]; change (Z.of_nat 32) with 32 in *.
  - rewrite R. split; [|intros N; exfalso; eapply N; [exact Hj|exact E]]. intros n Hn. split.
    + intros X. apply Ok_inj in X. rewrite <- X. exact E.
    + intros X. f_equal. apply mask_inj; [lia|lia|]. rewrite <- X. symmetry. exact E.
  - rewrite R. split; [|reflexivity]. intros n Hn. split; [discriminate|]. intros X. exfalso. eapply N; eauto.
Qed.

(** *** Text of addresses *)
Lemma split_join_dots l : l <> [] -> Forall (fun s => ~ In 46 s) l -> split_dots (join_dots l) = l.
Proof.
  assert (ONE : forall s, ~ In 46 s -> split_dots s = [s]).
  { induction s as [|c s IH]; intros N; [reflexivity|]. cbn. destruct (Z.eqb_spec c 46) as [->|]; [exfalso; apply N; now left|].
    rewrite IH; [reflexivity|]. intros X. apply N. now right. }
  assert (APP : forall s r, ~ In 46 s -> split_dots (s ++ 46 :: r) = s :: split_dots r).
  { induction s as [|c s IH]; intros r N; [reflexivity|]. cbn. destruct (Z.eqb_spec c 46) as [->|]; [exfalso; apply N; now left|].
    rewrite IH; [reflexivity|]. intros X. apply N. now right. }
  induction l as [|s l IH]; [congruence|]. intros _ F. inversion F as [|? ? F1 F2]; subst. destruct l as [|s2 l]; [now apply ONE|].
  change (join_dots (s :: s2 :: l)) with (s ++ 46 :: join_dots (s2 :: l)). rewrite APP by exact F1. now rewrite IH.
Qed.
Lemma dec_no_dot z : 0 <= z -> ~ In 46 (dec z).
Proof. intros H I. destruct (dec_nonneg z H) as (F & _). rewrite Forall_forall in F. specialize (F _ I). lia. Qed.
Lemma octet_dec z : 0 <= z <= 255 -> octet (dec z) = Some z.
Proof.
  intros H. unfold octet. destruct (dec_nonneg z ltac:(lia)) as (_ & _ & u & E & O). rewrite E, str_uint_str, O, <- E, str_eqb_refl.
  destruct (Z.leb_spec 0 z), (Z.leb_spec z 255); cbn; try lia. reflexivity.
Qed.
Lemma str_uint_dot s : In 46 s -> str_uint s = None.
Proof.
  induction s as [|c s IH]; [intros []|]. intros [->|I]; cbn; [destruct (str_uint s); reflexivity|]. now rewrite IH.
Qed.
Lemma quad_ok n : 0 <= n < 2 ^ 32 -> Forall (fun z => 0 <= z <= 255) (quad n) /\
  match quad n with [a; b; c; d] => a * 2 ^ 24 + b * 2 ^ 16 + c * 2 ^ 8 + d = n | _ => False end.
Proof.
  intros H. unfold quad. split.
  - repeat constructor; match goal with |- 0 <= ?x mod 256 => pose proof (Z.mod_pos_bound x 256 ltac:(lia)) | |- ?x mod 256 <= 255 => pose proof (Z.mod_pos_bound x 256 ltac:(lia)) end; lia.
  - replace (2 ^ 24) with (256 * 256 * 256) by reflexivity. replace (2 ^ 16) with (256 * 256) by reflexivity. replace (2 ^ 8) with 256 by reflexivity.
    replace (2 ^ 32) with (256 * 256 * 256 * 256) in H by reflexivity.
    rewrite <- !Z.div_div by lia. set (a := n / 256). set (b := a / 256). set (c := b / 256).
    pose proof (Z.div_mod n 256 ltac:(lia)). pose proof (Z.div_mod a 256 ltac:(lia)). pose proof (Z.div_mod b 256 ltac:(lia)).
    assert (C : c mod 256 = c). { apply Z.mod_small. split; [repeat apply Z.div_pos; lia|]. unfold c, b, a. rewrite !Z.div_div by lia. apply Z.div_lt_upper_bound; lia. }
    rewrite C. fold a in H0. fold b in H1. fold c in H2. lia.
Qed.
Section Aton.
  Variables (io other : str -> res Z).
  Hypothesis IO : int_no_dot io.
  Lemma ntoa_text n : 0 <= n < 2 ^ 32 -> exists t, ntoa n = Ok t /\ split_dots t = map dec (quad n) /\ aton io other t = Ok n.
  Proof.
    intros H. unfold ntoa. destruct (Z.leb_spec 0 n), (Z.ltb_spec n (2 ^ 32)); try lia. cbn [andb]. eexists. split; [reflexivity|].
    destruct (quad_ok n H) as (F & S). assert (SP : split_dots (join_dots (map dec (quad n))) = map dec (quad n)).
    { apply split_join_dots; [discriminate|]. apply Forall_map. eapply Forall_impl; [|exact F]. intros z Hz. cbv beta in Hz. apply dec_no_dot. lia. }
    split; [exact SP|]. unfold aton.
    set (t := join_dots (map dec (quad n))) in *. assert (D : In 46 t) by (unfold t, quad; cbn [map join_dots]; apply in_or_app; right; now left).
    assert (PI : py_int io t = Err EValue).
    { pose proof (str_uint_dot t D) as SU. pose proof (IO t D) as It. destruct t as [|c r]; [destruct D|].
      destruct (Z.eq_dec c 45) as [->|Nc]; [|now rewrite py_int_plain, SU].
      destruct D as [D|D]; [discriminate|]. destruct r as [|c2 r]; [destruct D|]. unfold py_int. cbn [tl]. now rewrite (str_uint_dot (c2 :: r) D), It. }
    rewrite PI. unfold aton_octets. rewrite SP. unfold quad in *. cbn [map]. inversion F as [|? ? F1 G1]; subst. inversion G1 as [|? ? F2 G2]; subst.
    inversion G2 as [|? ? F3 G3]; subst. inversion G3 as [|? ? F4 G4]; subst. rewrite !octet_dec by lia. now rewrite S.
  Qed.
  Lemma aton_dec n : aton io other (dec n) = Ok (mask (Z.max 0 (Z.min n 32))).
  Proof. unfold aton. rewrite py_int_dec. now rewrite aton_numbits_mask. Qed.

  (** C62 *)
  Lemma netmask_roundtrip n : 0 <= n <= 32 ->
    netmaskToNumbits io other (dec n) = Ok n /\
    exists t, ntoa (mask n) = Ok t /\ aton io other t = Ok (mask n) /\ netmaskToNumbits io other t = Ok n.
  Proof.
    intros H. pose proof (mask_range n H) as R. destruct (numbits_spec (mask n) R) as (S & _).
    assert (NB : numbits (mask n) = Ok n) by (apply S; auto).
    split.
    - unfold netmaskToNumbits. rewrite aton_dec. cbn [bind]. replace (Z.max 0 (Z.min n 32)) with n by lia. exact NB.
    - destruct (ntoa_text (mask n) R) as (t & E & _ & A). exists t. split; [exact E|]. split; [exact A|]. unfold netmaskToNumbits. now rewrite A.
  Qed.
  Lemma netmask_reject b : 0 <= b < 2 ^ 32 -> (forall n, 0 <= n <= 32 -> b <> mask n) ->
    exists t, ntoa b = Ok t /\ aton io other t = Ok b /\ netmaskToNumbits io other t = Err (EUser 2).
  Proof.
    intros R N. destruct (ntoa_text b R) as (t & E & _ & A). exists t. split; [exact E|]. split; [exact A|]. unfold netmaskToNumbits. rewrite A. cbn [bind].
    now apply numbits_spec.
  Qed.

  (** C70: the zone name *)
  Lemma zone_name a n ta tm : 0 <= a < 2 ^ 32 -> 8 <= n <= 32 -> ntoa a = Ok ta -> ntoa (mask n) = Ok tm ->
    let os := map dec (quad (Z.land a (mask n))) in
    let full := rev (firstn (Z.to_nat (n / 8)) os) in
    ptrSoaName io other ta tm = Ok (join_dots (if n mod 8 =? 0 then full else (nth (Z.to_nat (n / 8)) os [] ++ 47 :: dec n) :: full) ++ S_ ".in-addr.arpa.").
  Proof.
    intros Ha Hn Ea Em os full. pose proof (mask_range n ltac:(lia)) as R.
    destruct (ntoa_text a Ha) as (ta' & Ea' & _ & Aa). rewrite Ea in Ea'. apply Ok_inj in Ea'. subst ta'.
    destruct (ntoa_text (mask n) R) as (tm' & Em' & _ & Am). rewrite Em in Em'. apply Ok_inj in Em'. subst tm'.
    unfold ptrSoaName, netmaskToNumbits. rewrite Aa, Am. cbn [bind]. destruct (numbits_spec (mask n) R) as (SS & _).
    rewrite (proj2 (SS n ltac:(lia)) eq_refl). cbn [bind].
    assert (RN : 0 <= Z.land a (mask n) < 2 ^ 32).
    { split; [apply Z.land_nonneg; lia|]. destruct (Z.eq_dec (Z.land a (mask n)) 0) as [->|N0]; [lia|].
      apply Z.log2_lt_pow2; [assert (0 <= Z.land a (mask n)) by (apply Z.land_nonneg; lia); lia|].
      eapply Z.le_lt_trans; [apply Z.log2_land; lia|]. destruct (Z.eq_dec a 0) as [->|]; [rewrite Z.land_0_l in N0; congruence|].
      assert (Z.log2 a < 32) by (apply Z.log2_lt_pow2; lia). lia. }
    destruct (ntoa_text _ RN) as (t & Et & Sp & _). rewrite Et. cbn [bind]. rewrite Sp. fold os.
    assert (Lo : length os = 4%nat) by reflexivity.
    assert (Q : 1 <= n / 8 <= 4). { split; [apply Z.div_le_lower_bound; lia|]. assert (n / 8 < 5) by (apply Z.div_lt_upper_bound; lia). lia. }
    set (k := Z.to_nat (n / 8)) in *. assert (K : (1 <= k <= 4)%nat) by (unfold k; lia).
    assert (LN : last_n k (rev os) = full).
    { unfold full, last_n. destruct k as [|k']; [lia|]. rewrite rev_length, Lo. rewrite <- (firstn_skipn (S k') os) at 1. rewrite rev_app_distr.
      rewrite skipn_app. rewrite skipn_all2 by (rewrite rev_length, skipn_length, Lo; lia). cbn [app].
      rewrite rev_length, skipn_length, Lo. replace (4 - S k' - (4 - S k'))%nat with 0%nat by lia. reflexivity. }
    rewrite LN, rev_involutive. destruct (Z.eqb_spec (n mod 8) 0) as [E0|N0]; [reflexivity|].
    assert (K4 : (k < 4)%nat). { unfold k. assert (n / 8 <> 4); [|lia]. intros E4. pose proof (Z.div_mod n 8 ltac:(lia)). pose proof (Z.mod_pos_bound n 8 ltac:(lia)). lia. }
    rewrite (nth_error_nth' os [] (n := k)) by (rewrite Lo; exact K4). reflexivity.
  Qed.
End Aton.

(** ** Overrides (C64) *)
Section Override.
  Variable lower : str -> str.
  Variables (hs : str -> Z) (hb : bytes -> Z).
  Context {V : Type}.
  Notation get o := (fun d => over_get lower hs hb (V := V) d o).
  Lemma dn_text_nil d : dn_text d = [] -> d = [] \/ d = [[]].
  Proof.
    destruct d as [|r [|r2 d]]; [auto| |].
    - cbn. intros E. right. f_equal. now apply rdn_text_nil.
    - cbn. intros E. destruct (rdn_text r); discriminate.
  Qed.
  Lemma find_override_nearest o d : (forall k, skipn k d <> [[]]) -> nearest (get o) d (find_override lower hs hb o d).
  Proof.
    induction d as [|r d IH]; intros N.
    - assert (E : find_override lower hs hb o [] = over_get lower hs hb [] o).
      { cbn. match goal with |- match ?x with _ => _ end = _ => now destruct x end. }
      match goal with |- nearest _ _ ?x => replace x with (over_get lower hs hb [] o) by (symmetry; exact E) end.
      destruct (over_get lower hs hb [] o) as [v|] eqn:G; cbn [nearest].
      + exists 0%nat. split; [lia|]. split; [exact G|]. intros j; lia.
      + intros k. now rewrite skipn_nil.
    - cbn [find_override]. destruct (over_get lower hs hb (r :: d) o) as [v|] eqn:G; cbn [nearest].
      + exists 0%nat. split; [lia|]. split; [exact G|]. intros j; lia.
      + destruct (str_eqb (dn_text (r :: d)) []) eqn:E.
        * apply str_eqb_eq in E. apply dn_text_nil in E as [E|E]; [discriminate|]. exfalso. now apply (N 0%nat).
        * specialize (IH (fun k => N (S k))). destruct (find_override lower hs hb o d) as [v|]; cbn [nearest] in *.
          -- destruct IH as (k & L & E1 & M). exists (S k). split; [cbn; lia|]. split; [exact E1|]. intros [|j] Hj; [exact G|]. apply M. lia.
          -- intros [|k]; [exact G|apply IH].
  Qed.
  (** A table of text keys *)
  Lemma over_get_text (o : list (str * V)) d v : NoDup (map fst o) ->
    (over_get lower hs hb d (map (fun x => (KStr (fst x), snd x)) o) = Some v <-> In (dn_text d, v) o).
  Proof.
    intros ND. unfold over_get. induction o as [|(s & w) o IH]; [cbn; split; [discriminate|intros []]|].
    cbn in ND. inversion ND as [|? ? N1 N2]; subst. cbn [map fst snd find]. unfold okey_match at 1. cbn [okey_hash okey_eq].
    destruct (str_eqb (dn_text d) s) eqn:E.
    - apply str_eqb_eq in E. subst s. rewrite Z.eqb_refl. cbn [andb]. split; [intros [= <-]; now left|]. intros [[= ->]|I]; [reflexivity|].
      exfalso. apply N1. change (dn_text d) with (fst (dn_text d, v)). now apply in_map.
    - rewrite andb_false_r. rewrite (IH N2). split; [now right|]. intros [[= E1 E2]|I]; [subst; rewrite str_eqb_refl in E; discriminate|exact I].
  Qed.
End Override.

(** ** Errors (C63) *)
Lemma err_known c : rfc_code c <-> exists n, err_name c = Some n.
Proof.
  split.
  - intros H. assert (R : 0 <= c <= 80) by (unfold rfc_code in H; lia).
    assert (X : forallb (fun k => let c := Z.of_nat k in match err_name c with Some _ => true
       | None => negb ((c <=? 8) || ((10 <=? c) && (c <=? 14)) || ((16 <=? c) && (c <=? 21)) || ((32 <=? c) && (c <=? 34)) || (c =? 36) ||
                        ((48 <=? c) && (c <=? 54)) || ((64 <=? c) && (c <=? 69)) || (c =? 71) || (c =? 80)) end) (seq 0 81) = true) by (vm_compute; reflexivity).
    rewrite forallb_forall in X. specialize (X (Z.to_nat c)). rewrite in_seq in X. specialize (X ltac:(lia)). cbv zeta in X. rewrite Z2Nat.id in X by lia.
    destruct (err_name c) as [n|]; [eauto|]. exfalso. apply negb_true_iff in X. repeat (apply orb_false_iff in X as (X & ?)). unfold rfc_code in H. lia.
  - intros (n & E). unfold err_name in E. destruct (find (fun x => fst x =? c) err_table) as [(k & s)|] eqn:F; [|discriminate].
    apply find_some in F as (I & K). cbn in K. apply Z.eqb_eq in K. subst k. unfold err_table in I. unfold rfc_code.
    repeat (destruct I as [I|I]; [injection I as <- _; lia|]). destruct I.
Qed.
Lemma err_get_known c m : rfc_code c -> c <> 0 -> le_result (err_get c m) = Some c /\ le_msg (err_get c m) = m /\ le_code (err_get c m) = None /\
  exists n, le_name (err_get c m) = Some n.
Proof.
  intros H N. apply err_known in H as (n & E). unfold err_get. rewrite E. destruct (Z.eqb_spec c 0) as [|_]; [contradiction|]. cbn. eauto.
Qed.
Lemma err_get_unknown c m : ~ rfc_code c -> le_result (err_get c m) = None /\ le_code (err_get c m) = Some c /\ le_msg (err_get c m) = m.
Proof. intros H. unfold err_get. destruct (err_name c) as [n|] eqn:E; [exfalso; apply H, err_known; eauto|]. auto. Qed.
Lemma err_name_inj a b n : err_name a = Some n -> err_name b = Some n -> a = b.
Proof.
  assert (X : forallb (fun x => forallb (fun y => negb (bytes_eqb (B (snd x)) (B (snd y))) || (fst x =? fst y)) err_table) err_table = true) by (vm_compute; reflexivity).
  unfold err_name. destruct (find (fun x => fst x =? a) err_table) as [(k & s)|] eqn:F; [|discriminate].
  destruct (find (fun x => fst x =? b) err_table) as [(k2 & s2)|] eqn:F2; [|discriminate]. intros [= <-] [= E].
  apply find_some in F as (I & K), F2 as (I2 & K2). cbn in K, K2. apply Z.eqb_eq in K, K2. subst k k2.
  rewrite forallb_forall in X. specialize (X _ I). cbv beta in X. rewrite forallb_forall in X. specialize (X _ I2). cbn [fst snd] in X.
  rewrite E, bytes_eqb_refl in X. cbn in X. now apply Z.eqb_eq in X.
Qed.

(** ** Samba (C66) *)
Section Samba.
  Variable io : str -> res Z.
  Lemma samba_uid v x : samba_notify io v (S_ "uidNumber") = Ok x ->
    exists u, single io v (S_ "uidNumber") = Ok u /\ x = Some (S_ "rid", [dec (u * 2 + 1000)]).
  Proof. unfold samba_notify. rewrite str_eqb_refl. rewrite bind_ok. intros (u & E & H). apply Ok_inj in H. eauto. Qed.
  Lemma samba_gid v x : samba_notify io v (S_ "gidNumber") = Ok x ->
    exists g, single io v (S_ "gidNumber") = Ok g /\ x = Some (S_ "primaryGroupID", [dec (g * 2 + 1001)]).
  Proof.
    unfold samba_notify. change (str_eqb (S_ "gidNumber") (S_ "uidNumber")) with false. rewrite str_eqb_refl. rewrite bind_ok.
    intros (u & E & H). apply Ok_inj in H. eauto.
  Qed.
  Lemma sam_uid sid fixed v x : sam_notify io v sid fixed (S_ "uidNumber") = Ok x ->
    exists u, single io v (S_ "uidNumber") = Ok u /\ x = Some (S_ "sambaSID", [sid ++ 45 :: dec (u * 2 + 1000)]).
  Proof. unfold sam_notify. rewrite str_eqb_refl. rewrite bind_ok. intros (u & E & H). apply Ok_inj in H. eauto. Qed.
  Lemma sam_gid sid v x : sam_notify io v sid None (S_ "gidNumber") = Ok x ->
    exists g, single io v (S_ "gidNumber") = Ok g /\ x = Some (S_ "sambaPrimaryGroupSID", [sid ++ 45 :: dec (g * 2 + 1001)]).
  Proof.
    unfold sam_notify. change (str_eqb (S_ "gidNumber") (S_ "uidNumber")) with false. rewrite str_eqb_refl. rewrite bind_ok.
    intros (u & E & H). apply Ok_inj in H. eauto.
  Qed.
  (** The four claims, for sambaAccount and for sambaSamAccount with one domain SID. *)
  Definition user_id (sam : option str) v := match sam with None => samba_notify io v (S_ "uidNumber") | Some sid => sam_notify io v sid None (S_ "uidNumber") end.
  Definition group_id (sam : option str) v := match sam with None => samba_notify io v (S_ "gidNumber") | Some sid => sam_notify io v sid None (S_ "gidNumber") end.
  Lemma samba_ids sam v w k k' i i' :
    (user_id sam v = Ok (Some (k, i)) -> user_id sam w = Ok (Some (k', i')) -> i = i' -> single io v (S_ "uidNumber") = single io w (S_ "uidNumber")) /\
    (group_id sam v = Ok (Some (k, i)) -> group_id sam w = Ok (Some (k', i')) -> i = i' -> single io v (S_ "gidNumber") = single io w (S_ "gidNumber")) /\
    (user_id sam v = Ok (Some (k, i)) -> group_id sam w = Ok (Some (k', i')) -> i <> i').
  Proof.
    assert (J : forall sid a b : str, sid ++ 45 :: a = sid ++ 45 :: b -> a = b) by (intros sid a b E; apply app_inv_head in E; congruence).
    unfold user_id, group_id. destruct sam as [sid|]; (split; [|split]); intros H1 H2.
    - apply sam_uid in H1 as (u & S1 & [= -> ->]), H2 as (u' & S2 & [= -> ->]). rewrite S1, S2. intros [= E]. apply J, dec_inj in E. f_equal. lia.
    - apply sam_gid in H1 as (u & S1 & [= -> ->]), H2 as (u' & S2 & [= -> ->]). rewrite S1, S2. intros [= E]. apply J, dec_inj in E. f_equal. lia.
    - apply sam_uid in H1 as (u & S1 & [= -> ->]). apply sam_gid in H2 as (u' & S2 & [= -> ->]). intros [= E]. apply J, dec_inj in E. lia.
    - apply samba_uid in H1 as (u & S1 & [= -> ->]), H2 as (u' & S2 & [= -> ->]). rewrite S1, S2. intros [= E]. apply dec_inj in E. f_equal. lia.
    - apply samba_gid in H1 as (u & S1 & [= -> ->]), H2 as (u' & S2 & [= -> ->]). rewrite S1, S2. intros [= E]. apply dec_inj in E. f_equal. lia.
    - apply samba_uid in H1 as (u & S1 & [= -> ->]). apply samba_gid in H2 as (u' & S2 & [= -> ->]). intros [= E]. apply dec_inj in E. lia.
  Qed.
End Samba.

(** ** Loops that do not end (C61) *)
Lemma guess_stuck used m : used (m + 1) = true -> used m = false -> forall f, start_guessing used f (Some (m + 1)) (Some m) = Err EFuel.
Proof.
  intros U1 U0. assert (D : (m + (m + 1)) / 2 = m).
  { replace (m + (m + 1)) with (1 + m * 2) by lia. rewrite Z.div_add by lia. reflexivity. }
  assert (Lp : forall f, next_guess used f (m + 1) (Some m) m = Err EFuel).
  { induction f as [|f IH]; [reflexivity|]. rewrite ng_free by exact U0. destruct (Z.eqb_spec m (m + 1)); [lia|]. destruct (Z.eqb_spec m (m + 1 + 1)); [lia|].
    cbn [orb]. now rewrite D. }
  intros [|f]; [reflexivity|]. unfold start_guessing. rewrite ng_used by exact U1. destruct (Z.eqb_spec m (m + 1)); [lia|]. destruct (Z.eqb_spec m (m + 1 + 1)); [lia|].
  cbn [orb]. rewrite D. apply Lp.
Qed.
