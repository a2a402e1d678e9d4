(** The client's receive loop: every message of the stream is looked at, in order. *)
From Verif Require Import Base BaseFacts BerModel BerSpec BerProofs LdapModel LdapSpec LdapProofs StreamModel StreamSpec StreamProofs
  ClientModel ClientSpec ClientProofs.

Lemma gots_app a b : gots (a ++ b) = gots a ++ gots b. Proof. apply flat_map_app. Qed.

(** Nothing is looked at and the buffer is left alone. *)
Definition quiet (s s' : cstate) : Prop := c_buffer s' = c_buffer s /\ gots (c_trace s') = gots (c_trace s).
Lemma quiet_refl s : quiet s s. Proof. split; reflexivity. Qed.
Lemma quiet_trans a b c : quiet a b -> quiet b c -> quiet a c. Proof. intros (A & B) (C & D). split; congruence. Qed.
Lemma quiet_emit e s : gots [e] = [] -> quiet s (emit e s).
Proof. intros E. split; [reflexivity|]. cbn [emit c_trace]. rewrite gots_app, E. apply app_nil_r. Qed.
Lemma quiet_state s s' : c_buffer s' = c_buffer s -> c_trace s' = c_trace s -> quiet s s'.
Proof. intros A B. split; [exact A|now rewrite B]. Qed.
Ltac qx := first [exact (quiet_state _ _ eq_refl eq_refl) | now apply quiet_emit].

Lemma quiet_do_send k op controls tls s : quiet s (do_send k op controls tls s).
Proof.
  unfold do_send, raised. destruct (c_connected s) as [[]|]; try qx. cbv zeta.
  destruct (dict_has _ _); [exact (quiet_trans _ (set_next (c_next s + 1) s) _ (quiet_state _ _ eq_refl eq_refl) (quiet_emit (TRaised EAssert) _ eq_refl))|].
  destruct (negb _); [exact (quiet_trans _ (set_next (c_next s + 1) s) _ (quiet_state _ _ eq_refl eq_refl) (quiet_emit (TRaised EAssert) _ eq_refl))|].
  destruct k; cbv iota; match goal with |- context[toWire ?m] => destruct (toWire m) as [w|e] eqn:E end;
    (split; [reflexivity|]; cbn [emit c_trace set_onwire set_next]; rewrite ?gots_app; cbn; now rewrite ?app_nil_r).
Qed.

Section Stream.
  Variable reps : list tev -> nat.
  Variable choose : list tev -> option useract.
  Variable verdict : list tev -> res bool.

  Lemma quiet_act a s : quiet s (act a s).
  Proof. destruct a; [apply quiet_do_send|qx]. Qed.
  Lemma quiet_user_acts n : forall s, quiet s (user_acts choose n s).
  Proof.
    induction n as [|n IH]; intros s; cbn [user_acts]; [qx|]. eapply quiet_trans; [|apply IH].
    destruct (choose _); [apply quiet_act|qx].
  Qed.
  Lemma quiet_user_runs s : quiet s (user_runs reps choose s). Proof. apply quiet_user_acts. Qed.
  Lemma quiet_cb i v s : quiet s (cbStartTLS i v s).
  Proof.
    unfold cbStartTLS. destruct v; try qx. repeat match goal with |- quiet _ (match ?x with _ => _ end) => destruct x; try qx end.
  Qed.
  Lemma quiet_fail_all n : forall s, quiet s (fail_all reps choose n s).
  Proof.
    induction n as [|n IH]; intros s; cbn [fail_all]; [qx|]. destruct (rev _) as [|(i & w) r]; [qx|].
    eapply quiet_trans; [|apply IH]. eapply quiet_trans; [|apply quiet_user_runs].
    eapply quiet_trans; [exact (quiet_state _ (set_onwire (rev r) s) eq_refl eq_refl)|qx].
  Qed.

  (** One message *)
  Lemma handle_got tag i v c s : is_response v = true ->
    c_buffer (fst (handle reps choose verdict (OMessage tag (VInt i) v c) s)) = c_buffer s /\
    gots (c_trace (fst (handle reps choose verdict (OMessage tag (VInt i) v c) s))) = gots (c_trace s) ++ [(i, v, c)].
  Proof.
    intros R. unfold handle. rewrite R. cbv zeta.
    set (s1 := emit (TGot i v c) s).
    assert (E : c_buffer s1 = c_buffer s /\ gots (c_trace s1) = gots (c_trace s) ++ [(i, v, c)]).
    { split; [reflexivity|]. unfold s1. cbn [emit c_trace]. now rewrite gots_app. }
    clearbody s1. destruct E as (<- & <-).
    match goal with |- c_buffer (fst ?x) = _ /\ gots (c_trace (fst ?x)) = _ => change (quiet s1 (fst x)) end.
    destruct (i =? 0); [cbn [fst]; qx|]. destruct (find _ _) as [(j & w)|]; [|qx]. destruct (w_handler w).
    - eapply quiet_trans; [apply quiet_user_runs|].
      match goal with |- context[TCalled i ?v ?r] => eapply quiet_trans; [apply (quiet_emit (TCalled i v r)); reflexivity|]; destruct r as [[]|] end;
        exact (quiet_state _ _ eq_refl eq_refl).
    - destruct (w_args w); [qx|].
      match goal with |- context[TFired i ?v] => eapply quiet_trans; [apply (quiet_emit (TFired i v)); reflexivity|] end. cbn [fst].
      eapply quiet_trans; [|eapply quiet_trans; [apply quiet_user_runs|exact (quiet_state _ _ eq_refl eq_refl)]].
      destruct (w_tls w); [apply quiet_cb|qx].
  Qed.

  (** Response messages as objects *)
  Definition response_message (o : obj) (m : Z * obj * option (list (pv * pv * pv))) : Prop :=
    exists tag i v c, o = OMessage tag (VInt i) v c /\ is_response v = true /\ m = (i, v, c).
  Definition failed (t : list tev) : Prop := exists e, In (TError e) t.
  Lemma failed_ext s s' : sext s s' -> failed (c_trace s) -> failed (c_trace s').
  Proof. intros (r & -> & _) (e & I). exists e. apply in_or_app. now left. Qed.

  Lemma decode_prefix w o p t : reads ctx_top w o -> w = p ++ t -> t <> [] -> p <> [] -> decode ctx_top p = Err EInsufficient.
  Proof.
    intros (ident & content & k & Hi & T & _) E Ht Hp. apply decode_short; [|exact Hp]. intros [[j c] n] H.
    rewrite (berHeader_prefix ident content w p Hi T) in H; [discriminate|]. exists t. auto.
  Qed.

  Lemma recv_stream fuel : forall s ws os ms x, (length (c_buffer s) < fuel)%nat ->
    Forall2 (reads ctx_top) ws os -> Forall (fun o => client_check o = Ok true) os -> Forall2 response_message os ms ->
    c_buffer s ++ x = concat ws ->
    failed (c_trace (recv reps choose verdict fuel s)) \/
    exists ws2 os2 ms1 ms2, ms = ms1 ++ ms2 /\ Forall2 (reads ctx_top) ws2 os2 /\ Forall (fun o => client_check o = Ok true) os2 /\
      Forall2 response_message os2 ms2 /\ c_buffer (recv reps choose verdict fuel s) ++ x = concat ws2 /\
      gots (c_trace (recv reps choose verdict fuel s)) = gots (c_trace s) ++ ms1 /\ (x = [] -> ms2 = []).
  Proof.
    induction fuel as [|f IH]; intros s ws os ms x L F C M E; [lia|]. cbn [recv].
    destruct F as [|w o ws os R F].
    - cbn in E. apply app_eq_nil in E as (Eb & ->). rewrite Eb. right.
      inversion M; subst. change (decode ctx_top []) with (Ok (None : option obj, 0)). cbv iota beta zeta.
      exists [], [], [], []. cbn. rewrite app_nil_r. intuition.
    - inversion C as [|? ? C1 C2]; subst. inversion M as [|? m ? ms' M1 M2]; subst.
      cbn [concat] in E.
      assert (W : (exists b, c_buffer s = w ++ b /\ b ++ x = concat ws) \/ exists t, w = c_buffer s ++ t /\ t <> [] /\ x = t ++ concat ws).
      { apply app_split in E. destruct E as (l & [(A & B)|(A & B)]).
        - left. exists l. split; [exact A|]. now rewrite B.
        - destruct l as [|y l].
          + left. exists []. rewrite app_nil_r in *. split; [now rewrite A|]. cbn in B |- *. exact B.
          + right. exists (y :: l). split; [exact A|]. split; [discriminate|exact B]. }
      destruct W as [(b & Eb & Ex)|(t & Ew & Nt & Ex)].
      + rewrite Eb, (reads_decode _ _ _ b R). cbv zeta. rewrite C1.
        destruct M1 as (tag & i & v & c & -> & Rv & ->).
        set (s1 := set_buffer _ s). pose proof (handle_got tag i v c s1 Rv) as (H1 & H2). pose proof (sext_handle reps choose verdict (OMessage tag (VInt i) v c) s1) as H3.
        destruct (handle reps choose verdict (OMessage tag (VInt i) v c) s1) as (s2 & r). cbn [fst] in H1, H2, H3.
        assert (B2 : c_buffer s2 = b) by (rewrite H1; unfold s1; cbn [c_buffer set_buffer]; now rewrite zdrop_app).
        destruct r as [u|e].
        * destruct (IH s2 ws os ms' x) as [G|(ws2 & os2 & m1 & m2 & -> & G1 & G2 & G3 & G4 & G5 & G6)]; auto.
          { rewrite B2. rewrite Eb, app_length in L. apply element_reads, element_nonempty in R. destruct w; [congruence|cbn in L; lia]. }
          { now rewrite B2. }
          right. exists ws2, os2, ((i, v, c) :: m1), m2. split; [reflexivity|]. split; [exact G1|]. split; [exact G2|]. split; [exact G3|]. split; [exact G4|].
          split; [|exact G6]. rewrite G5, H2. unfold s1. cbn [c_trace set_buffer]. now rewrite <- app_assoc.
        * left. exists e. cbn [emit c_trace]. apply in_or_app. right. now left.
      + right. exists (w :: ws), (o :: os), [], (m :: ms').
        assert (D : decode ctx_top (c_buffer s) = Err EInsufficient \/ c_buffer s = [] /\ decode ctx_top (c_buffer s) = Ok (None, 0)).
        { destruct (c_buffer s) as [|y p] eqn:Bu; [right; split; reflexivity|left]. eapply decode_prefix; eauto. discriminate. }
        destruct D as [->|(Bn & ->)].
        * cbn [app]. rewrite app_nil_r. split; [reflexivity|]. split; [now constructor|]. split; [exact C|]. split; [exact M|]. split; [exact E|]. split; [reflexivity|].
          intros ->. destruct t; [congruence|discriminate].
        * cbv zeta. cbn [c_buffer set_buffer c_trace]. rewrite Bn in *. split; [reflexivity|]. split; [now constructor|]. split; [exact C|]. split; [exact M|].
          split; [exact E|]. split; [now rewrite app_nil_r|]. intros ->. destruct t; [congruence|discriminate].
  Qed.

  (** One event that brings no bytes *)
  Lemma quiet_step s e : (forall b, e <> EData b) -> quiet s (step reps choose verdict s e).
  Proof.
    intros N. destruct e; cbn [step].
    - destruct (c_connected s); qx.
    - now destruct (N b).
    - destruct (c_connected s) as [[]|]; try qx. unfold connectionLost. eapply quiet_trans; [|apply quiet_fail_all].
      eapply quiet_trans; [exact (quiet_state _ (set_connected false s) eq_refl eq_refl)|qx].
    - apply quiet_act.
    - destruct (c_due s) as [|n]; [qx|]. eapply quiet_trans; [exact (quiet_state _ (set_due n s) eq_refl eq_refl)|]. unfold startTLS_now.
      destruct (c_connected _) as [[]|]; [destruct (c_onwire _); [apply quiet_do_send|]| |];
        (eapply quiet_trans; [|apply quiet_user_runs]; qx).
    - qx.
  Qed.

  Lemma fold_sext es : forall s, sext s (fold_left (step reps choose verdict) es s).
  Proof. induction es as [|e es IH]; intros s; cbn [fold_left]; [sx|]. eapply sext_trans; [apply sext_step|apply IH]. Qed.

  Lemma fold_stream es : forall s ws os ms, Forall2 (reads ctx_top) ws os -> Forall (fun o => client_check o = Ok true) os -> Forall2 response_message os ms ->
    c_buffer s ++ arrived es = concat ws -> (arrived es = [] -> ms = []) ->
    failed (c_trace (fold_left (step reps choose verdict) es s)) \/
    gots (c_trace (fold_left (step reps choose verdict) es s)) = gots (c_trace s) ++ ms.
  Proof.
    induction es as [|e es IH]; intros s ws os ms F C M E Z.
    - right. cbn. rewrite Z by reflexivity. now rewrite app_nil_r.
    - cbn [fold_left]. assert (D : (exists b, e = EData b) \/ forall b, e <> EData b) by (destruct e; [right|left; eauto|right|right|right|right]; discriminate).
      destruct D as [(b & ->)|N].
      + cbn [step]. unfold dataReceived. set (s1 := set_buffer (c_buffer s ++ b) s).
        change (arrived (EData b :: es)) with (b ++ arrived es) in *.
        destruct (recv_stream (S (length (c_buffer s ++ b))) s1 ws os ms (arrived es)) as [G|(ws2 & os2 & m1 & m2 & -> & G1 & G2 & G3 & G4 & G5 & G6)]; auto.
        { cbn. rewrite <- app_assoc. exact E. }
        * left. eapply failed_ext; [apply fold_sext|exact G].
        * destruct (IH _ ws2 os2 m2 G1 G2 G3 G4 G6) as [H|H]; [left; exact H|right]. rewrite H, G5. unfold s1. cbn [c_trace set_buffer]. now rewrite app_assoc.
      + pose proof (quiet_step s e N) as (Q1 & Q2).
        assert (A : arrived (e :: es) = arrived es) by (destruct e; [reflexivity|now destruct (N b)|reflexivity..]). rewrite A in *.
        destruct (IH (step reps choose verdict s e) ws os ms F C M) as [H|H]; auto; [now rewrite Q1|]. right. now rewrite H, Q2.
  Qed.

  Lemma read_response_message o i r cs : read_message read_response o = Some (i, r, cs) ->
    exists m, response_message o m /\ (let '(j, v, c) := m in read_message read_response (OMessage 0x10 (VInt j) v c)) = Some (i, r, cs).
  Proof.
    intros H. destruct o; try discriminate. cbn [read_message] in H.
    destruct (rd_int id) as [j|] eqn:Ej; [|discriminate]. destruct id; try discriminate. injection Ej as ->.
    destruct (read_response o) as [r'|] eqn:Er; [|discriminate].
    exists (j, o, controls). split.
    - exists tag, j, o, controls. split; [reflexivity|]. split; [|reflexivity].
      destruct o; cbn in Er |- *; try discriminate; reflexivity.
    - cbn [read_message rd_int]. rewrite Er. exact H.
  Qed.

  Lemma client_stream next es ms ws :
    Forall2 (fun '(i, r, cs) w => toWire (message_obj i (response_obj r) cs) = Ok w) ms ws -> arrived es = concat ws ->
    failed (c_trace (run reps choose verdict next es)) \/
    map (fun '(i, v, c) => read_message read_response (OMessage 0x10 (VInt i) v c)) (gots (c_trace (run reps choose verdict next es)))
      = map (fun '(i, r, cs) => Some (i, seen_response r, cs)) ms.
  Proof.
    intros F E. destruct (responses_reads ms ws F) as (os & R & Q & C).
    assert (X : exists gs, Forall2 response_message os gs /\
      map (fun '(i, v, c) => read_message read_response (OMessage 0x10 (VInt i) v c)) gs = map (fun '(i, r, cs) => Some (i, seen_response r, cs)) ms).
    { unfold responses_read in Q. clear -Q. revert ms Q. induction os as [|o os IH]; intros [|((i & r) & cs) ms] Q; try discriminate.
      - exists []. split; [constructor|reflexivity].
      - cbn [map] in Q. injection Q as Q1 Q2. destruct (IH ms Q2) as (gs & A & B).
        destruct (read_response_message o i _ cs Q1) as (m & M1 & M2). exists (m :: gs). split; [now constructor|].
        cbn [map]. rewrite B. destruct m as ((j & v) & c). now rewrite M2. }
    destruct X as (gs & A & B). unfold run.
    destruct (fold_stream es (c0 next) ws os gs R C A) as [G|G]; [exact E| |left; exact G|right; rewrite G; exact B].
    intros Z. rewrite Z in E. destruct R as [|w o ws' os' R1 R]; [now inversion A|]. apply element_reads, element_nonempty in R1.
    destruct w; [congruence|discriminate].
  Qed.
End Stream.
