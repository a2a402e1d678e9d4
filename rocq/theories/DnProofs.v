(** Proofs about distinguished names: C15 - C20. *)
From Verif Require Import BaseFacts DnModel DnSpec.

(** ** Escaping (C15) *)
Lemma zin_In c l : zin c l = true <-> In c l.
Proof.
  unfold zin. rewrite existsb_exists. split.
  - intros (x & H & E). apply Z.eqb_eq in E. now subst.
  - intros H. exists c. split; [exact H|apply Z.eqb_refl].
Qed.

Lemma zin_false c l : zin c l = false <-> ~ In c l.
Proof. rewrite <- zin_In. destruct (zin c l); split; congruence. Qed.

Definition esc_end (l : str) : str := flat_map (fun c => [c_bs; c]) l.
(** What may be taken off an end: nothing, or one special character. *)
Definition is_end (l : str) : Prop := l = [] \/ exists c, In c escapedEnds /\ l = [c].

Lemma escape_parts s :
  exists a m b, s = a ++ m ++ b /\ escape s = esc_end a ++ flat_map escape_char m ++ esc_end b /\
    is_end a /\ is_end b /\
    (a = [] -> match m with c :: _ => ~ In c escapedEnds | [] => True end) /\
    (b = [] -> match rev m with c :: _ => ~ In c escapedEnds | [] => True end).
Proof.
  unfold escape.
  assert (L : exists a s1, s = a ++ s1 /\ escape_lead s = (esc_end a, s1) /\ is_end a /\
            (a = [] -> match s1 with c :: _ => ~ In c escapedEnds | [] => True end)).
  { destruct s as [|c r]; cbn [escape_lead].
    - exists [], []. do 3 (split; [try reflexivity; now left|]). intros _; exact I.
    - destruct (zin c escapedEnds) eqn:E.
      + apply zin_In in E. exists [c], r. do 3 (split; [try reflexivity; right; eauto|]). congruence.
      + apply zin_false in E. exists [], (c :: r). do 3 (split; [try reflexivity; now left|]). auto. }
  destruct L as (a & s1 & -> & -> & Ea & La).
  assert (T : exists m b, s1 = m ++ b /\ escape_trail s1 = (m, esc_end b) /\ is_end b /\
            (b = [] -> match rev m with c :: _ => ~ In c escapedEnds | [] => True end)).
  { unfold escape_trail. destruct (rev s1) as [|c r] eqn:R.
    - apply (f_equal (@rev Z)) in R. rewrite rev_involutive in R. cbn in R. subst.
      exists [], []. do 3 (split; [try reflexivity; now left|]). intros _; exact I.
    - assert (S : s1 = rev r ++ [c]).
      { apply (f_equal (@rev Z)) in R. rewrite rev_involutive in R. exact R. }
      destruct (zin c escapedEnds) eqn:E.
      + apply zin_In in E. exists (rev r), [c]. do 3 (split; [first [exact S|reflexivity|right; eauto]|]). congruence.
      + apply zin_false in E. exists s1, []. rewrite app_nil_r. do 3 (split; [try reflexivity; now left|]).
        intros _. now rewrite R. }
  destruct T as (m & b & -> & -> & Eb & Lb).
  exists a, m, b. do 4 (split; [auto|]). split; [|exact Lb].
  intros Ha. specialize (La Ha). destruct m; auto.
Qed.

Lemma text_app a b : text (a ++ b) <-> text a /\ text b.
Proof. apply Forall_app. Qed.

Section Unescape.
  Variable io : Z -> Z -> res Z.

  Lemma unescape_pair c x :
    lower_hex c = false -> unescape io (c_bs :: c :: x) = do t <- unescape io x; Ok (c :: t).
  Proof. intros H. cbn [unescape]. rewrite Z.eqb_refl, H. reflexivity. Qed.

  Lemma unescape_char c x :
    0 <= c -> unescape io (escape_char c ++ x) = do t <- unescape io x; Ok (c :: t).
  Proof.
    intros Hc. unfold escape_char. destruct (zin c escapedChars) eqn:E.
    - apply zin_In in E. cbn [app]. apply unescape_pair.
      cbv [escapedChars In c_comma c_plus c_quote c_bs c_lt c_gt c_semi c_eq] in E.
      repeat destruct E as [<-|E]; try reflexivity. destruct E.
    - apply zin_false in E. destruct (Z.leb_spec c 31).
      + assert (R : c = 16 * (c / 16) + c mod 16) by (apply Z.div_mod; lia).
        assert (c / 16 = 0 \/ c / 16 = 1) as D.
        { assert (0 <= c / 16 < 2); [|lia]. split; [apply Z.div_pos; lia|apply Z.div_lt_upper_bound; lia]. }
        pose proof (Z.mod_pos_bound c 16 ltac:(lia)) as M.
        remember (c mod 16) as lo. remember (c / 16) as hi. clear Heqlo Heqhi.
        cbn [app unescape]. rewrite Z.eqb_refl.
        assert (lower_hex (hex_upper hi) = true) as -> by (destruct D; subst hi; reflexivity).
        assert (H1 : hexval (hex_upper hi) = Some hi) by (destruct D; subst hi; reflexivity).
        assert (H2 : hexval (hex_upper lo) = Some lo).
        { unfold hexval, hex_upper. destruct (Z.ltb_spec lo 10).
          - replace (48 <=? 48 + lo) with true by lia. replace (48 + lo <=? 57) with true by lia.
            cbn [andb]. f_equal. lia.
          - replace (55 + lo <=? 57) with false by lia. rewrite andb_false_r.
            replace (65 <=? 55 + lo) with true by lia. replace (55 + lo <=? 70) with true by lia.
            cbn [andb]. f_equal. lia. }
        unfold int16. rewrite H1, H2. cbn [bind]. now rewrite <- R.
      + cbn [app unescape]. destruct (Z.eqb_spec c c_bs) as [->|]; [|reflexivity].
        exfalso. apply E. cbn. tauto.
  Qed.

  Lemma unescape_chars m x :
    text m -> unescape io (flat_map escape_char m ++ x) = do t <- unescape io x; Ok (m ++ t).
  Proof.
    intros T. induction T as [|c m Hc T IH]; cbn [flat_map app].
    - destruct (unescape io x); reflexivity.
    - rewrite <- app_assoc, unescape_char, IH by exact Hc.
      destruct (unescape io x); reflexivity.
  Qed.

  Lemma unescape_end a x :
    is_end a -> unescape io (esc_end a ++ x) = do t <- unescape io x; Ok (a ++ t).
  Proof.
    intros [->|(c & H & ->)].
    - cbn. destruct (unescape io x); reflexivity.
    - cbn [esc_end flat_map app]. apply unescape_pair.
      cbv [escapedEnds In c_space c_hash] in H. repeat destruct H as [<-|H]; try reflexivity. destruct H.
  Qed.

  Lemma unescape_escape_app s x :
    text s -> unescape io (escape s ++ x) = do t <- unescape io x; Ok (s ++ t).
  Proof.
    intros T. destruct (escape_parts s) as (a & m & b & -> & -> & Ea & Eb & _ & _).
    apply text_app in T as (_ & T). apply text_app in T as (T & _).
    rewrite <- !app_assoc, unescape_end, unescape_chars, unescape_end by assumption.
    destruct (unescape io x) as [t|e]; cbn [bind]; [|reflexivity]. now rewrite <- !app_assoc.
  Qed.

  Lemma unescape_escape s : text s -> unescape io (escape s) = Ok s.
  Proof.
    intros T. pose proof (unescape_escape_app s [] T) as H. rewrite app_nil_r in H. rewrite H.
    cbn. now rewrite app_nil_r.
  Qed.
End Unescape.

Lemma nb_app sep a b : no_bare sep a -> no_bare sep b -> no_bare sep (a ++ b).
Proof. intros A Hb. induction A; cbn [app]; [exact Hb|constructor; auto|constructor; auto]. Qed.

Definition separators : list Z := [c_comma; c_plus; c_quote; c_lt; c_gt; c_semi; c_eq].

Lemma nb_escape_char sep c : In sep separators -> 0 <= c -> no_bare sep (escape_char c).
Proof.
  intros Hs Hc. unfold escape_char. destruct (zin c escapedChars) eqn:E.
  - apply nb_pair, nb_nil.
  - apply zin_false in E. destruct (Z.leb_spec c 31).
    + apply nb_pair. constructor; [| |constructor].
      * unfold hex_upper. destruct (_ <? _); pose proof (Z.mod_pos_bound c 16); lia.
      * pose proof (Z.mod_pos_bound c 16 ltac:(lia)) as M.
        cbv [separators In c_comma c_plus c_quote c_lt c_gt c_semi c_eq] in Hs.
        unfold hex_upper. destruct (Z.ltb_spec (c mod 16) 10); lia.
    + constructor; [| |constructor].
      * intros ->. apply E. cbn. tauto.
      * intros ->. apply E. revert Hs. cbn. tauto.
Qed.

Lemma nb_esc_end sep a : no_bare sep (esc_end a).
Proof. induction a; cbn [esc_end flat_map app]; constructor; assumption. Qed.

Lemma nb_escape sep s : In sep separators -> text s -> no_bare sep (escape s).
Proof.
  intros Hs T. destruct (escape_parts s) as (a & m & b & -> & -> & _).
  apply text_app in T as (_ & T). apply text_app in T as (T & _).
  apply nb_app; [apply nb_esc_end|]. apply nb_app; [|apply nb_esc_end].
  induction T as [|c m Hc T IH]; cbn [flat_map]; [constructor|].
  apply nb_app; [now apply nb_escape_char|exact IH].
Qed.

Lemma escape_char_head c : exists x r, escape_char c = x :: r /\ (x = 92 \/ x = c).
Proof. unfold escape_char. destruct (zin _ _); [eauto|]. destruct (_ <=? _); eauto. Qed.

Lemma escape_begins c s : In c escapedEnds -> begins_not c (escape s).
Proof.
  intros Hc r. destruct (escape_parts s) as (a & m & b & -> & -> & Ea & Eb & La & _).
  assert (c <> 92) as N by (intros ->; revert Hc; cbv; intuition congruence).
  destruct Ea as [->|(d & _ & ->)].
  - cbn [esc_end flat_map app]. destruct m as [|d m].
    + cbn [flat_map app]. destruct Eb as [->|(d & _ & ->)]; cbn; [congruence|].
      intros H. apply N. now inversion H.
    + cbn [flat_map]. destruct (escape_char_head d) as (x & w & -> & X). cbn [app].
      intros H. injection H as -> _. destruct X as [->|<-]; [easy|]. now apply (La eq_refl).
  - cbn. intros H. apply N. now inversion H.
Qed.

Lemma escape_char_last c : 0 <= c -> exists x r, escape_char c = r ++ [x] /\
   (x = c \/ 48 <= x <= 57 \/ 65 <= x <= 70).
Proof.
  intros H. unfold escape_char. destruct (zin _ _); [exists c, [c_bs]; auto|].
  destruct (Z.leb_spec c 31); [|exists c, []; auto].
  exists (hex_upper (c mod 16)), [c_bs; hex_upper (c / 16)]. split; [reflexivity|].
  pose proof (Z.mod_pos_bound c 16 ltac:(lia)). unfold hex_upper. destruct (Z.ltb_spec (c mod 16) 10); lia.
Qed.

Lemma escape_ends c s : In c escapedEnds -> text s -> ends_not c (escape s).
Proof.
  intros Hc T r. destruct (escape_parts s) as (a & m & b & -> & -> & Ea & Eb & _ & Lb).
  apply text_app in T as (_ & T). apply text_app in T as (T & _).
  destruct Eb as [->|(d & _ & ->)].
  2:{ cbn [esc_end flat_map app]. intros H.
      change [c_bs; d] with ([c_bs] ++ [d]) in H. rewrite !app_assoc in H.
      apply app_inj_tail in H as (<- & _). eexists; reflexivity. }
  change (esc_end []) with (@nil Z). rewrite app_nil_r. intros H.
  destruct (rev m) as [|d m'] eqn:R.
  - apply (f_equal (@rev Z)) in R. rewrite rev_involutive in R. cbn in R. subst m.
    cbn in H. rewrite app_nil_r in H. destruct Ea as [->|(d & _ & ->)]; cbn in H.
    + destruct r; discriminate.
    + change [c_bs; d] with ([c_bs] ++ [d]) in H. apply app_inj_tail in H as (<- & _).
      exists []. reflexivity.
  - apply (f_equal (@rev Z)) in R. rewrite rev_involutive in R. cbn in R. subst m.
    specialize (Lb eq_refl). rewrite flat_map_app in H. cbn [flat_map] in H. rewrite app_nil_r in H.
    apply text_app in T as (_ & T). apply Forall_inv in T.
    destruct (escape_char_last d T) as (x & w & E & X). rewrite E, !app_assoc in H.
    apply app_inj_tail in H as (_ & ->). exfalso.
    destruct X as [->|X]; [now apply Lb|].
    cbv [escapedEnds In c_space c_hash] in Hc. lia.
Qed.

(** ** Splitting *)
Lemma split_nb sep w cur skip rest :
  no_bare sep w -> (skip = true -> begins_not 32 w) ->
  split_loop sep skip cur (w ++ rest) =
  split_loop sep (match w with [] => skip | _ => false end) (cur ++ w) rest.
Proof.
  intros N. revert cur skip. induction N as [|c w N IH|c w Hc Hs N IH]; intros cur skip Hb.
  - cbn [app]. now rewrite app_nil_r.
  - cbn [app split_loop]. change (92 =? c_space) with false. rewrite andb_false_r.
    change (92 =? c_bs) with true. cbn iota.
    rewrite IH by congruence. rewrite <- app_assoc. cbn [app].
    destruct w; reflexivity.
  - cbn [app split_loop]. replace (skip && (c =? c_space)) with false.
    2:{ destruct skip; cbn [andb]; [|reflexivity]. destruct (Z.eqb_spec c c_space) as [->|]; [|reflexivity].
        exfalso. apply (Hb eq_refl w). reflexivity. }
    destruct (Z.eqb_spec c c_bs) as [->|]; [easy|].
    destruct (Z.eqb_spec c sep) as [->|]; [easy|].
    rewrite IH by congruence. rewrite <- app_assoc. cbn [app]. destruct w; reflexivity.
Qed.

Lemma split_join_loop sep parts skip cur w :
  sep <> 92 -> sep <> 32 ->
  Forall (fun w => no_bare sep w /\ begins_not 32 w) (w :: parts) ->
  split_loop sep skip cur (join [sep] (w :: parts)) = (cur ++ w) :: parts.
Proof.
  intros H92 H32. revert w skip cur. induction parts as [|w' parts IH]; intros w skip cur F;
    inversion F as [|? ? (N & Hb) F']; subst.
  - cbn [join]. rewrite <- (app_nil_r w) at 1. rewrite split_nb by auto. reflexivity.
  - change (join [sep] (w :: w' :: parts)) with (w ++ sep :: join [sep] (w' :: parts)).
    rewrite split_nb by auto. cbn [split_loop].
    destruct (Z.eqb_spec sep c_space) as [->|]; [easy|]. rewrite andb_false_r.
    destruct (Z.eqb_spec sep c_bs) as [->|]; [easy|]. rewrite Z.eqb_refl.
    rewrite IH by exact F'. reflexivity.
Qed.

Lemma split_join sep parts :
  sep <> 92 -> sep <> 32 -> parts <> [[]] ->
  Forall (fun w => no_bare sep w /\ begins_not 32 w) parts ->
  splitOnNotEscaped (join [sep] parts) sep = parts.
Proof.
  intros A C N F. destruct parts as [|w parts]; [reflexivity|].
  unfold splitOnNotEscaped. destruct (join [sep] (w :: parts)) eqn:J.
  - exfalso. destruct parts; cbn [join] in J; [subst; easy|].
    destruct w; discriminate.
  - rewrite <- J. now rewrite split_join_loop.
Qed.

(** ** Text round trip (C16) *)
Lemma split_eq_plain t v : ~ In 61 t -> split_eq (t ++ 61 :: v) = Some (t, v).
Proof.
  induction t as [|c t IH]; intros H; cbn [app split_eq].
  - reflexivity.
  - destruct (Z.eqb_spec c c_eq) as [->|]; [exfalso; apply H; now left|].
    rewrite IH; [reflexivity|]. intros X. apply H. now right.
Qed.

Lemma atv_text_eq a : atv_text a = escape (a_type a) ++ c_eq :: escape (a_value a).
Proof. reflexivity. Qed.

Lemma atv_text_nb sep a : In sep [c_comma; c_plus] -> atv_ok a -> no_bare sep (atv_text a).
Proof.
  intros Hs (Tt & _ & Tv). rewrite atv_text_eq.
  assert (In sep separators) by (revert Hs; cbn; tauto).
  apply nb_app; [now apply nb_escape|]. constructor; [| |now apply nb_escape].
  - intro X. discriminate X.
  - revert Hs. cbv. intuition congruence.
Qed.

Lemma atv_text_begins a : begins_not 32 (atv_text a).
Proof.
  intros r. rewrite atv_text_eq. pose proof (escape_begins 32 (a_type a)) as E.
  destruct (escape (a_type a)) as [|c w] eqn:X; cbn [app].
  - intros Y. discriminate Y.
  - intros Y. injection Y as -> _. apply (E ltac:(cbn; tauto) w). reflexivity.
Qed.

Lemma atv_text_nonempty a : atv_text a <> [].
Proof. rewrite atv_text_eq. destruct (escape (a_type a)); discriminate. Qed.

Lemma nb_join sep sep2 parts :
  sep2 <> 92 -> sep2 <> sep -> Forall (no_bare sep) parts -> no_bare sep (join [sep2] parts).
Proof.
  intros A C F. induction F as [|w parts N F IH]; cbn [join]; [constructor|].
  destruct parts as [|w' parts]; [exact N|].
  apply nb_app; [exact N|]. cbn [app]. now constructor.
Qed.

Lemma rdn_text_nb r : Forall atv_ok r -> no_bare c_comma (rdn_text r).
Proof.
  intros F. apply nb_join; [discriminate|discriminate|].
  induction F; cbn [map]; constructor; auto. apply atv_text_nb; [now left|assumption].
Qed.

Lemma join_begins c sep parts : Forall (begins_not c) parts -> Forall (fun w => w <> []) parts ->
  begins_not c (join [sep] parts).
Proof.
  intros F N r. destruct F as [|w parts Hb F]; cbn [join]; [discriminate|].
  inversion N; subst. destruct parts; [apply Hb|].
  destruct w as [|x w]; [easy|]. cbn [app]. intros E. injection E as -> _. now apply (Hb w).
Qed.

Lemma rdn_text_begins r : begins_not 32 (rdn_text r).
Proof.
  apply join_begins; (induction r; cbn [map]; constructor; auto).
  - apply atv_text_begins.
  - apply atv_text_nonempty.
Qed.

Lemma rdn_text_nil r : rdn_text r = [] -> r = [].
Proof.
  destruct r as [|a r]; [reflexivity|]. unfold rdn_text. cbn [map join].
  destruct (map atv_text r); intros E; [now apply atv_text_nonempty in E|].
  apply app_eq_nil in E as (E & _). now apply atv_text_nonempty in E.
Qed.

Lemma mapR_map {A C D} (f : A -> res C) (g : D -> A) (h : D -> C) l :
  Forall (fun x => f (g x) = Ok (h x)) l -> mapR f (map g l) = Ok (map h l).
Proof.
  intros F. induction F as [|x l E F IH]; cbn [map mapR]; [reflexivity|]. now rewrite E, IH.
Qed.

Lemma parse_rdn_text io r : Forall atv_ok r -> parse_rdn io (rdn_text r) = Ok r.
Proof.
  intros F. unfold parse_rdn, rdn_text. rewrite split_join; [|discriminate|discriminate| |].
  - rewrite <- (map_id r) at 2. apply mapR_map. eapply Forall_impl; [|exact F].
    intros a (Tt & N & Tv). cbn beta. rewrite atv_text_eq, unescape_escape_app by exact Tt.
    cbn [unescape]. change (c_eq =? c_bs) with false. cbn iota.
    rewrite unescape_escape by exact Tv. cbn [bind]. unfold parse_atv.
    change c_eq with 61. rewrite split_eq_plain by exact N. now destruct a.
  - intros E. destruct r as [|a [|a' r]]; try discriminate.
    cbn in E. injection E as E. now apply atv_text_nonempty in E.
  - apply Forall_map. eapply Forall_impl; [|exact F]. intros a Ha. split.
    + apply atv_text_nb; [cbn; tauto|exact Ha].
    + apply atv_text_begins.
Qed.

Lemma parse_dn_text io d : dn_ok d -> parse_dn io (dn_text d) = Ok d.
Proof.
  intros (F & N). unfold parse_dn, dn_text. rewrite split_join; [|discriminate|discriminate| |].
  - rewrite <- (map_id d) at 2. apply mapR_map. eapply Forall_impl; [|exact F].
    intros r Hr. now apply parse_rdn_text.
  - intros E. destruct d as [|r [|r' d]]; try discriminate. cbn in E. injection E as E.
    apply rdn_text_nil in E. now subst.
  - apply Forall_map. eapply Forall_impl; [|exact F]. intros r Hr. split.
    + now apply rdn_text_nb.
    + apply rdn_text_begins.
Qed.

(** ** Parser outputs (C17) *)

Lemma hexval_range c v : hexval c = Some v -> 0 <= v < 16.
Proof.
  unfold hexval.
  destruct ((48 <=? c) && (c <=? 57)) eqn:A; [intros [= <-]; lia|].
  destruct ((65 <=? c) && (c <=? 70)) eqn:C; [intros [= <-]; lia|].
  destruct ((97 <=? c) && (c <=? 102)) eqn:D; [intros [= <-]; lia|discriminate].
Qed.

Lemma unescape_text io s t : io_ok io -> text s -> unescape io s = Ok t -> text t.
Proof.
  intros Hio. remember (length s) as n eqn:Hn. revert s t Hn.
  induction n as [n IH] using lt_wf_ind. intros s t -> T.
  destruct s as [|c r]; cbn [unescape]; [intros [= <-]; constructor|].
  inversion T as [|? ? Hc Tr]; subst.
  destruct (c =? c_bs).
  - destruct r as [|d r2]; [discriminate|]. inversion Tr as [|? ? Hd Tr2]; subst.
    destruct (lower_hex d) eqn:LH.
    + destruct r2 as [|e r3].
      * unfold int16_1. destruct (hexval d) as [v|] eqn:Hv; [|discriminate]. intros [= <-].
        apply hexval_range in Hv. constructor; [lia|constructor].
      * rewrite bind_ok. intros (v & Hv & H). rewrite bind_ok in H. destruct H as (t0 & Ht & [= <-]).
        inversion Tr2; subst. constructor.
        -- unfold int16 in Hv. destruct (hexval d) as [h|] eqn:Hh; [|discriminate]. apply hexval_range in Hh.
           destruct (hexval e) as [l|] eqn:Hl.
           ++ apply hexval_range in Hl. apply Ok_inj in Hv. lia.
           ++ destruct (_ || _); [apply Ok_inj in Hv; lia|].
              destruct (_ <? _); [discriminate|]. apply Hio in Hv. lia.
        -- eapply (IH (length r3)); [|reflexivity| |exact Ht]; [cbn [length]; lia|assumption].
    + rewrite bind_ok. intros (t0 & Ht & [= <-]). constructor; [exact Hd|].
      eapply (IH (length r2)); [|reflexivity| |exact Ht]; [cbn [length]; lia|assumption].
  - rewrite bind_ok. intros (t0 & Ht & [= <-]). constructor; [exact Hc|].
    eapply (IH (length r)); [|reflexivity| |exact Ht]; [cbn [length]; lia|assumption].
Qed.

Lemma split_loop_text sep skip cur s :
  text cur -> text s -> Forall text (split_loop sep skip cur s).
Proof.
  remember (length s) as n eqn:Hn. revert s skip cur Hn.
  induction n as [n IH] using lt_wf_ind. intros s skip cur -> Tc T.
  destruct s as [|c r]; cbn [split_loop]; [constructor; auto|].
  inversion T as [|? ? Hc Tr]; subst.
  destruct (skip && _). { eapply IH; [|reflexivity| |]; auto. }
  destruct (c =? c_bs).
  - destruct r as [|d r2].
    + constructor; [|constructor]. apply text_app. split; [exact Tc|repeat constructor; exact Hc].
    + inversion Tr; subst. eapply (IH (length r2)); [cbn [length]; lia|reflexivity| |assumption].
      apply text_app. split; [exact Tc|]. repeat constructor; assumption.
  - destruct (c =? sep).
    + constructor; [exact Tc|]. eapply IH; [|reflexivity|constructor|exact Tr]. cbn [length]. lia.
    + eapply (IH (length r)); [cbn [length]; lia|reflexivity| |exact Tr].
      apply text_app. split; [exact Tc|repeat constructor; exact Hc].
Qed.

Lemma split_text sep s : text s -> Forall text (splitOnNotEscaped s sep).
Proof.
  intros T. unfold splitOnNotEscaped. destruct s; [constructor|]. apply split_loop_text; [constructor|exact T].
Qed.

Lemma mapR_inv {A C} (f : A -> res C) l m : mapR f l = Ok m -> Forall2 (fun x y => f x = Ok y) l m.
Proof.
  revert m. induction l as [|x l IH]; intros m; cbn [mapR]; [intros [= <-]; constructor|].
  rewrite bind_ok. intros (y & Hy & H). rewrite bind_ok in H. destruct H as (t & Ht & [= <-]).
  constructor; auto.
Qed.

Lemma split_eq_inv s t v : split_eq s = Some (t, v) -> s = t ++ 61 :: v /\ ~ In 61 t.
Proof.
  revert t. induction s as [|c s IH]; intros t; cbn [split_eq]; [discriminate|].
  destruct (Z.eqb_spec c c_eq) as [->|N].
  - intros [= <- <-]. split; [reflexivity|tauto].
  - destruct (split_eq s) as [[a b]|]; [|discriminate]. intros [= <- <-].
    destruct (IH a eq_refl) as (-> & H). split; [reflexivity|]. intros [E|E]; [easy|now apply H].
Qed.

Lemma split_loop_nonempty sep skip cur s : split_loop sep skip cur s <> [].
Proof.
  remember (length s) as n eqn:Hn. revert s skip cur Hn.
  induction n as [n IH] using lt_wf_ind. intros s skip cur ->.
  destruct s as [|c r]; cbn [split_loop]; [discriminate|].
  destruct (skip && _); [apply (IH (length r)); [cbn [length]; lia|reflexivity]|].
  destruct (c =? c_bs).
  - destruct r as [|d r]; [discriminate|]. apply (IH (length r)); [cbn [length]; lia|reflexivity].
  - destruct (c =? sep); [discriminate|]. apply (IH (length r)); [cbn [length]; lia|reflexivity].
Qed.

Lemma parse_rdn_ok io s r : io_ok io -> text s -> parse_rdn io s = Ok r -> Forall atv_ok r /\ (r = [] -> s = []).
Proof.
  intros Hio T H. unfold parse_rdn in H. apply mapR_inv in H. split.
  - pose proof (split_text c_plus s T) as F. revert F.
    induction H as [|x a l m Hx _ IH]; intros F; [constructor|].
    pose proof (Forall_inv F) as Tx. apply Forall_inv_tail in F. constructor; [|auto].
    apply bind_ok in Hx as (u & Hu & Ha). apply (unescape_text io x u Hio Tx) in Hu.
    unfold parse_atv in Ha. destruct (split_eq u) as [[t v]|] eqn:E; [|discriminate].
    apply Ok_inj in Ha. subst a. apply split_eq_inv in E as (-> & N).
    apply text_app in Hu as (Ht & Hv). split; [exact Ht|]. split; [exact N|].
    cbn. now inversion Hv.
  - intros ->. inversion H as [E|]. unfold splitOnNotEscaped in E.
    destruct s as [|c s]; [reflexivity|]. symmetry in E. now apply split_loop_nonempty in E.
Qed.

(** Splitting a non-empty text never gives the single empty part. *)
Lemma split_loop_single sep skip cur s : split_loop sep skip cur s = [[]] -> cur = [] /\ (skip = false -> s = []).
Proof.
  remember (length s) as n eqn:Hn. revert s skip cur Hn.
  induction n as [n IH] using lt_wf_ind. intros s skip cur ->.
  destruct s as [|c r]; cbn [split_loop]; [intros [= ->]; auto|].
  destruct (skip && (c =? c_space)) eqn:E.
  - intros H. apply (IH (length r)) in H; [|cbn [length]; lia|reflexivity].
    destruct H as (-> & _). split; [reflexivity|]. destruct skip; [congruence|discriminate].
  - destruct (c =? c_bs).
    + destruct r as [|d r2].
      * intros [= H]. destruct cur; discriminate.
      * intros H. apply (IH (length r2)) in H; [|cbn [length]; lia|reflexivity].
        destruct H as (H & _). destruct cur; discriminate.
    + destruct (c =? sep).
      * intros [= -> H]. now apply split_loop_nonempty in H.
      * intros H. apply (IH (length r)) in H; [|cbn [length]; lia|reflexivity].
        destruct H as (H & _). destruct cur; discriminate.
Qed.

Lemma parse_dn_ok io s d : io_ok io -> text s -> parse_dn io s = Ok d -> dn_ok d.
Proof.
  intros Hio T H. unfold parse_dn in H. apply mapR_inv in H.
  pose proof (split_text c_comma s T) as F. split.
  - revert F. induction H as [|x r l m Hx _ IH]; intros F; [constructor|].
    pose proof (Forall_inv F) as Tx. apply Forall_inv_tail in F. constructor; [|auto].
    eapply parse_rdn_ok; eauto.
  - intros ->. inversion H as [|x r l m Hx Hl E]; subst. inversion Hl; subst.
    assert (x = []) as ->.
    { rewrite <- E in F. apply Forall_inv in F. eapply parse_rdn_ok; eauto. }
    unfold splitOnNotEscaped in E. destruct s as [|c s]; [discriminate|].
    symmetry in E. apply split_loop_single in E as (_ & E). now specialize (E eq_refl).
Qed.

Lemma dn_normalises io s d :
  io_ok io -> text s -> parse_dn io s = Ok d -> parse_dn io (dn_text d) = Ok d.
Proof. intros A C D. apply parse_dn_text. eapply parse_dn_ok; eauto. Qed.

(** ** Equality (C18) *)
Section Eq.
  Variable lower : str -> str.

  Lemma atv_eqb_spec a b : atv_eqb lower a b = true <-> same_atv lower a b.
  Proof. unfold atv_eqb, same_atv. rewrite andb_true_iff, !str_eqb_eq. tauto. Qed.

  Lemma list_eqb_spec {A} (eqb : A -> A -> bool) (R : A -> A -> Prop) :
    (forall x y, eqb x y = true <-> R x y) ->
    forall l m, list_eqb eqb l m = true <-> Forall2 R l m.
  Proof.
    intros H l. induction l as [|x l IH]; intros [|y m]; cbn [list_eqb]; split; try congruence;
      try (intros X; inversion X; fail); try constructor.
    - apply andb_true_iff in H0 as (A1 & A2). now apply H.
    - apply andb_true_iff in H0 as (A1 & A2). now apply IH.
    - intros X. inversion X; subst. apply andb_true_iff. split; [now apply H|now apply IH].
  Qed.

  Lemma rdn_eqb_spec a b : rdn_eqb lower a b = true <-> same_rdn lower a b.
  Proof. apply list_eqb_spec, atv_eqb_spec. Qed.
  Lemma dn_eqb_spec a b : dn_eqb lower a b = true <-> same_dn lower a b.
  Proof. apply list_eqb_spec, rdn_eqb_spec. Qed.

  Lemma Forall2_equiv {A} (R : A -> A -> Prop) :
    (forall x, R x x) -> (forall x y, R x y -> R y x) -> (forall x y z, R x y -> R y z -> R x z) ->
    (forall x, Forall2 R x x) /\ (forall x y, Forall2 R x y -> Forall2 R y x) /\
    (forall x y z, Forall2 R x y -> Forall2 R y z -> Forall2 R x z).
  Proof.
    intros Hr Hs Ht. split; [|split].
    - intros l. induction l; constructor; auto.
    - intros l m H. induction H; constructor; auto.
    - intros l m n H. revert n. induction H; intros n X; inversion X; subst; constructor; eauto.
  Qed.

  Lemma same_dn_equiv :
    (forall x, same_dn lower x x) /\ (forall x y, same_dn lower x y -> same_dn lower y x) /\
    (forall x y z, same_dn lower x y -> same_dn lower y z -> same_dn lower x z).
  Proof.
    assert (E : (forall x, same_rdn lower x x) /\ (forall x y, same_rdn lower x y -> same_rdn lower y x) /\
      (forall x y z, same_rdn lower x y -> same_rdn lower y z -> same_rdn lower x z)).
    { apply Forall2_equiv; unfold same_atv.
      - auto.
      - intros x y (A & C). auto.
      - intros x y z (A & C) (D & E). split; congruence. }
    destruct E as (A & C & D). now apply Forall2_equiv.
  Qed.

  Lemma dn_eqb_equiv :
    (forall x, dn_eqb lower x x = true) /\
    (forall x y, dn_eqb lower x y = true -> dn_eqb lower y x = true) /\
    (forall x y z, dn_eqb lower x y = true -> dn_eqb lower y z = true -> dn_eqb lower x z = true).
  Proof.
    destruct same_dn_equiv as (A & C & D).
    split; [|split]; [intros x|intros x y|intros x y z]; rewrite !dn_eqb_spec; eauto.
  Qed.
End Eq.

Lemma dn_text_inj a b : dn_ok a -> dn_ok b -> dn_text a = dn_text b -> a = b.
Proof.
  intros A C E. pose proof (parse_dn_text (fun _ _ => Err EValue) a A) as P.
  rewrite E, parse_dn_text in P by exact C. now apply Ok_inj in P.
Qed.

(** ** Containment (C19) *)
Section Contains.
  Variable lower : str -> str.

  Lemma contains_loop_spec l m :
    contains_loop lower l m = true <-> exists m1 m2, m = m1 ++ m2 /\ same_dn lower l m1.
  Proof.
    revert m. induction l as [|x l IH]; intros m.
    - split; [|destruct m; reflexivity]. intros _. exists [], m. split; [reflexivity|constructor].
    - destruct m as [|y m]; cbn [contains_loop].
      + split; [discriminate|]. intros (m1 & m2 & E & F). inversion F; subst. discriminate.
      + destruct (rdn_eqb lower x y) eqn:E; cbn [negb].
        * rewrite IH. split.
          -- intros (m1 & m2 & -> & F). exists (y :: m1), m2. split; [reflexivity|].
             constructor; [now apply rdn_eqb_spec|exact F].
          -- intros (m1 & m2 & H & F). inversion F as [|? y' ? m1' H1 H2]; subst. injection H as -> ->. eauto.
        * split; [discriminate|]. intros (m1 & m2 & H & F).
          inversion F as [|? y' ? m1' H1 H2]; subst. injection H as -> ->.
          apply rdn_eqb_spec in H1. congruence.
  Qed.

  Lemma same_dn_rev a b : same_dn lower a b -> same_dn lower (rev a) (rev b).
  Proof.
    intros F. induction F; cbn [rev]; [constructor|].
    apply Forall2_app; [exact IHF|]. constructor; [assumption|constructor].
  Qed.

  Lemma contains_spec a b : contains lower a b = true <-> in_tree lower a b.
  Proof.
    unfold contains, in_tree. destruct (dn_eqb lower a b) eqn:E.
    - split; [|reflexivity]. intros _. exists [], b. split; [reflexivity|now apply dn_eqb_spec].
    - rewrite contains_loop_spec. split.
      + intros (m1 & m2 & H & F). exists (rev m2), (rev m1).
        split; [rewrite <- rev_app_distr, <- H; now rewrite rev_involutive|].
        apply same_dn_rev in F. now rewrite rev_involutive in F.
      + intros (pre & suf & -> & F). exists (rev suf), (rev pre).
        split; [apply rev_app_distr|now apply same_dn_rev].
  Qed.

  Lemma in_tree_order :
    (forall a, in_tree lower a a) /\
    (forall a b c, in_tree lower a b -> in_tree lower b c -> in_tree lower a c) /\
    (forall a b, in_tree lower a b -> in_tree lower b a -> same_dn lower a b) /\
    (forall b, in_tree lower (dn_up b) b) /\ (forall b, in_tree lower [] b).
  Proof.
    destruct (same_dn_equiv lower) as (R & Sy & T).
    split; [|split; [|split; [|split]]].
    - intros a. exists [], a. auto.
    - intros a b c (p & s & -> & F) (q & u & -> & G).
      apply Forall2_app_inv_l in G as (u1 & u2 & G1 & G2 & ->).
      exists (q ++ u1), u2. split; [now rewrite app_assoc|]. eapply T; eauto.
    - intros a b (p & s & E & F) (q & u & E2 & G).
      assert (length p = 0%nat).
      { apply Forall2_len in F, G. apply (f_equal (@length rdn)) in E, E2.
        rewrite app_length in E, E2. lia. }
      destruct p; [|discriminate]. cbn in E. now subst.
    - intros [|r b]; [exists [], []; split; [reflexivity|constructor]|].
      exists [r], b. split; [reflexivity|apply R].
    - intros b. exists b, []. split; [now rewrite app_nil_r|constructor].
  Qed.
End Contains.

Lemma contains_order lower :
  (forall a b, contains lower a b = true <-> in_tree lower a b) /\
  (forall a, contains lower a a = true) /\
  (forall a b c, contains lower a b = true -> contains lower b c = true -> contains lower a c = true) /\
  (forall a b, contains lower a b = true -> contains lower b a = true -> dn_eqb lower a b = true) /\
  (forall b, contains lower (dn_up b) b = true) /\ (forall b, contains lower [] b = true).
Proof.
  destruct (in_tree_order lower) as (A & C & D & E & F).
  split; [intros; apply contains_spec|].
  split; [intros; now apply contains_spec|].
  split; [intros a b c; rewrite !contains_spec; eauto|].
  split; [intros a b; rewrite !contains_spec, dn_eqb_spec; eauto|].
  split; intros; apply contains_spec; auto.
Qed.

(** ** Ordering (C20) *)
Lemma atv_gt_unequal lower depth a b : atv_eqb lower a b = false -> atv_gt lower depth a b = Err ERecursion.
Proof. intros H. induction depth as [|n IH]; cbn [atv_gt]; [reflexivity|]. now rewrite H. Qed.

Lemma str_leb_total a b : str_leb a b = true \/ str_leb b a = true.
Proof.
  revert b. induction a as [|x a IH]; intros [|y b]; cbn [str_leb]; auto.
  destruct (Z.ltb_spec x y), (Z.ltb_spec y x); auto; lia.
Qed.
Lemma str_leb_antisym a b : str_leb a b = true -> str_leb b a = true -> a = b.
Proof.
  revert b. induction a as [|x a IH]; intros [|y b]; cbn [str_leb]; try congruence.
  destruct (Z.ltb_spec x y), (Z.ltb_spec y x); try congruence; try lia.
  intros. assert (x = y) by lia. subst. f_equal. auto.
Qed.
Lemma str_leb_refl a : str_leb a a = true.
Proof. destruct (str_leb_total a a); assumption. Qed.

Lemma str_trichotomy a b : str_ltb a b = negb (str_ltb b a) \/ a = b.
Proof.
  unfold str_ltb. destruct (str_leb a b) eqn:X, (str_leb b a) eqn:Y; cbn; auto.
  - right. now apply str_leb_antisym.
  - destruct (str_leb_total a b); congruence.
Qed.

Lemma str_eqb_sym a b : str_eqb a b = str_eqb b a.
Proof. destruct (str_eqb_spec a b), (str_eqb_spec b a); congruence. Qed.

Lemma atv_ltb_sym lower a b : atv_eqb lower a b = false -> atv_ltb a b = negb (atv_ltb b a).
Proof.
  intros N. unfold atv_ltb. rewrite (str_eqb_sym (a_type b)).
  destruct (str_eqb_spec (a_type a) (a_type b)) as [E|E]; cbn [negb].
  - destruct (str_trichotomy (a_value a) (a_value b)) as [H|H]; [exact H|].
    exfalso. rewrite (proj2 (atv_eqb_spec lower a b)) in N; [discriminate|]. split; congruence.
  - destruct (str_trichotomy (a_type a) (a_type b)) as [H|H]; [exact H|easy].
Qed.

Lemma atv_eqb_sym lower a b : atv_eqb lower a b = atv_eqb lower b a.
Proof. unfold atv_eqb. now rewrite (str_eqb_sym (lower (a_type a))), (str_eqb_sym (lower (a_value a))). Qed.

Lemma rdn_eqb_sym lower a b : rdn_eqb lower a b = rdn_eqb lower b a.
Proof.
  unfold rdn_eqb. revert b. induction a as [|x a IH]; intros [|y b]; cbn [list_eqb]; auto.
  now rewrite IH, atv_eqb_sym.
Qed.

Lemma list_trichotomy {A} (eqb ltb : A -> A -> bool) :
  (forall x y, eqb x y = eqb y x) -> (forall x y, eqb x y = false -> ltb x y = negb (ltb y x)) ->
  forall l m, (list_eqb eqb l m = true /\ list_ltb eqb ltb l m = false /\ list_ltb eqb ltb m l = false) \/
              (list_eqb eqb l m = false /\ list_ltb eqb ltb l m = negb (list_ltb eqb ltb m l)).
Proof.
  intros Sy T l. induction l as [|x l IH]; intros [|y m]; cbn [list_eqb list_ltb]; auto.
  rewrite (Sy y x). destruct (eqb x y) eqn:E; cbn [andb]; [apply IH|]. right. auto.
Qed.

Lemma rdn_trichotomy lower a b :
  (rdn_eqb lower a b = true /\ rdn_ltb lower a b = false /\ rdn_ltb lower b a = false) \/
  (rdn_eqb lower a b = false /\ rdn_ltb lower a b = negb (rdn_ltb lower b a)).
Proof. apply list_trichotomy; [apply atv_eqb_sym|apply atv_ltb_sym]. Qed.

Lemma rdn_order lower a b :
  rdn_ltb lower a b = rdn_gtb lower b a /\
  rdn_leb lower a b = (rdn_ltb lower a b || rdn_eqb lower a b) /\
  rdn_geb lower a b = (rdn_gtb lower a b || rdn_eqb lower a b) /\
  (rdn_eqb lower a b = true -> rdn_ltb lower a b = false /\ rdn_gtb lower a b = false) /\
  (rdn_eqb lower a b = false -> rdn_ltb lower a b = negb (rdn_gtb lower a b)).
Proof.
  unfold rdn_leb, rdn_gtb, rdn_geb. rewrite (rdn_eqb_sym lower b a).
  destruct (rdn_trichotomy lower a b) as [(-> & -> & ->)|(-> & E)]; cbn.
  - repeat split; congruence.
  - rewrite E. destruct (rdn_ltb lower b a); cbn; repeat split; congruence.
Qed.

Lemma dn_order lower a b :
  dn_ltb lower a b = dn_gtb lower b a /\
  dn_leb lower a b = (dn_ltb lower a b || dn_eqb lower a b) /\
  dn_geb lower a b = (dn_gtb lower a b || dn_eqb lower a b) /\
  (dn_eqb lower a b = true -> dn_ltb lower a b = false /\ dn_gtb lower a b = false) /\
  (dn_eqb lower a b = false -> dn_ltb lower a b = negb (dn_gtb lower a b)).
Proof.
  unfold dn_leb, dn_gtb, dn_geb.
  assert (Sy : dn_eqb lower b a = dn_eqb lower a b).
  { unfold dn_eqb. revert b. induction a as [|x a IH]; intros [|y b]; cbn [list_eqb]; auto.
    now rewrite IH, rdn_eqb_sym. }
  rewrite Sy.
  destruct (list_trichotomy (rdn_eqb lower) (rdn_ltb lower) (rdn_eqb_sym lower)
     ltac:(intros x y N; destruct (rdn_trichotomy lower x y) as [(E & _)|(_ & E)]; [congruence|exact E]) a b)
    as [(E1 & E2 & E3)|(E1 & E2)]; fold (dn_eqb lower a b) (dn_ltb lower a b) (dn_ltb lower b a) in *.
  - rewrite E1, E2, E3. cbn. repeat split; congruence.
  - rewrite E1, E2. destruct (dn_ltb lower b a); cbn; repeat split; congruence.
Qed.

(** ** Domain names *)
Lemma domain_loop_spec upper l parts :
  exists vs rest, domain_loop upper l parts = rev vs ++ parts /\ exists l1, l = l1 ++ rest /\
    Forall2 (is_dc upper) vs l1 /\
    match rest with r :: _ => forall v, ~ is_dc upper v r | [] => True end.
Proof.
  revert parts. induction l as [|r l IH]; intros parts.
  - exists [], []. split; [reflexivity|]. exists []. repeat split; constructor.
  - assert (Stop : (forall v, ~ is_dc upper v r) -> domain_loop upper (r :: l) parts = parts ->
       exists vs rest, domain_loop upper (r :: l) parts = rev vs ++ parts /\ exists l1, r :: l = l1 ++ rest /\
       Forall2 (is_dc upper) vs l1 /\ match rest with r :: _ => forall v, ~ is_dc upper v r | [] => True end).
    { intros N E. exists [], (r :: l). split; [exact E|]. exists []. repeat split; auto. }
    destruct r as [|a [|a2 r]]; cbn [domain_loop].
    + apply Stop; [|reflexivity]. intros v (x & E & _). discriminate.
    + destruct (str_eqb_spec (upper (a_type a)) (S_ "DC")) as [E|E]; cbn [negb].
      * destruct (IH (a_value a :: parts)) as (vs & rest & -> & l1 & -> & F & H).
        exists (a_value a :: vs), rest. split; [cbn [rev]; now rewrite <- app_assoc|].
        exists ([a] :: l1). split; [reflexivity|]. split; [|exact H]. constructor; [|exact F].
        exists a. auto.
      * exists [], ([a] :: l). split; [reflexivity|]. exists []. split; [reflexivity|].
        split; [constructor|]. intros v (x & X & Y & _). injection X as <-. easy.
    + apply Stop; [|reflexivity]. intros v (x & E & _). discriminate.
Qed.

Lemma domain_name_spec upper d :
  exists (pre dcs : list rdn) (vs : list str),
    d = pre ++ dcs /\ Forall2 (is_dc upper) vs dcs /\
    (forall pre' r v, pre = pre' ++ [r] -> ~ is_dc upper v r) /\
    getDomainName upper d = match vs with [] => None | _ => Some (join (S_ ".") vs) end.
Proof.
  unfold getDomainName.
  destruct (domain_loop_spec upper (rev d) []) as (vs & rest & -> & l1 & E & F & H).
  exists (rev rest), (rev l1), (rev vs). rewrite app_nil_r.
  split; [apply (f_equal (@rev rdn)) in E; rewrite rev_involutive, rev_app_distr in E; exact E|].
  split; [|split; [|now destruct (rev vs)]].
  - clear -F. induction F; cbn [rev]; [constructor|]. apply Forall2_app; [exact IHF|].
    constructor; [assumption|constructor].
  - intros pre r v X. apply (f_equal (@rev rdn)) in X. rewrite rev_involutive, rev_app_distr in X.
    cbn in X. subst rest. apply H.
Qed.
