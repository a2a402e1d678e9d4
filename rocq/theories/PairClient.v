(** The client's end: what it writes, and when. *)
From Verif Require Import Base BaseFacts BerModel BerSpec BerProofs LdapModel LdapSpec LdapProofs StreamModel StreamSpec StreamProofs
  ClientModel ClientSpec ClientProofs ClientStream PairModel PairSpec.

Definition writes_of (t : list tev) : list bytes := flat_map (fun e => match e with TWritten w => [w] | _ => [] end) t.
Lemma writes_app a b : writes_of (a ++ b) = writes_of a ++ writes_of b. Proof. apply flat_map_app. Qed.

Section Client.
  Variable reps : list tev -> nat.
  Variable choose : list tev -> option useract.
  Variable verdict : list tev -> res bool.
  Hypothesis law : lawful_user choose.

  Record CI (s : cstate) (ms : list meant) : Prop := {
    ci_enc : Forall2 sends ms (writes_of (c_trace s));
    ci_nd : NoDup (map mid ms);
    ci_pos : 0 < c_next s;
    ci_ids : forall i, In i (map mid ms) -> 0 < i < c_next s;
    ci_sent : forall i op tls, In (TSent i op tls) (c_trace s) -> 0 < i < c_next s /\ exists q, op = request_obj q /\
      ((exists cs, In (i, q, cs) ms) \/ (~ In i (map mid ms) /\ exists cs e, toWire (message_obj i op cs) = Err e));
    ci_got : forall i v c, In (TGot i v c) (c_trace s) -> i < c_next s;
    ci_order : forall a i op tls b v c, c_trace s = a ++ TSent i op tls :: b -> ~ In (TGot i v c) a;
    ci_called : forall a i v r b, c_trace s = a ++ TCalled i v r :: b -> r = verdict a }.
  Definition keeps (s s' : cstate) : Prop := c_next s <= c_next s' /\ forall ms, CI s ms -> exists r, CI s' (ms ++ r).
  Lemma keeps_state s s' : c_trace s' = c_trace s -> c_next s <= c_next s' -> keeps s s'.
  Proof.
    intros T N. split; [exact N|]. intros ms [A B C D E F G H]. exists []. rewrite app_nil_r. constructor; rewrite ?T; auto.
    - lia.
    - intros i I. specialize (D i I). lia.
    - intros i op tls I. destruct (E i op tls I) as (X & Y). split; [lia|exact Y].
    - intros i v c I. specialize (F i v c I). lia.
  Qed.
  Lemma keeps_refl s : keeps s s. Proof. apply keeps_state; [reflexivity|lia]. Qed.
  Lemma keeps_trans a b c : keeps a b -> keeps b c -> keeps a c.
  Proof.
    intros (L1 & K1) (L2 & K2). split; [lia|]. intros ms H. destruct (K1 ms H) as (r1 & H1). destruct (K2 _ H1) as (r2 & H2).
    exists (r1 ++ r2). now rewrite app_assoc.
  Qed.
  (** An event that says nothing *)
  Lemma keeps_emit e s : (match e with TSent _ _ _ | TWritten _ => False | TGot i _ _ => i < c_next s | TCalled _ _ r => r = verdict (c_trace s) | _ => True end) ->
    keeps s (emit e s).
  Proof.
    intros N. split; [cbn; lia|]. intros ms [A B C D E F G H]. exists []. rewrite app_nil_r. constructor; cbn [emit c_trace c_next]; auto.
    - rewrite writes_app. destruct e; cbn in N |- *; try (now destruct N); rewrite app_nil_r; exact A.
    - intros i op tls I. apply in_app_or in I as [I|[->|[]]]; [exact (E _ _ _ I)|destruct N].
    - intros i v c I. apply in_app_or in I as [I|[->|[]]]; [exact (F _ _ _ I)|exact N].
    - intros a i op tls b v c X. apply snoc_cases in X as [(_ & _ & <-)|(b' & -> & X)]; [destruct N|eauto].
    - intros a i v r b X. apply snoc_cases in X as [(_ & -> & <-)|(b' & -> & X)]; [exact N|eauto].
  Qed.
  Ltac kx := first [apply keeps_state; [reflexivity|cbn; lia] | now apply keeps_emit].

  Lemma keeps_do_send k q c tls s : keeps s (do_send k (request_obj q) (option_map (map control_args) c) tls s).
  Proof.
    unfold do_send, raised. destruct (c_connected s) as [[]|]; try kx. cbv zeta.
    assert (K1 : forall e, keeps s (emit (TRaised e) (set_next (c_next s + 1) s))).
    { intros e. eapply keeps_trans; [|now apply keeps_emit]. kx. }
    destruct (dict_has _ _); [apply K1|]. destruct (negb _); [apply K1|].
    set (c' := match k with KMulti _ _ => None | _ => c end).
    replace (match k with KMulti _ _ => None | _ => option_map (map control_args) c end) with (option_map (map control_args) c') by (unfold c'; destruct k; reflexivity).
    change (OMessage (class_tag KSeq) (VInt (c_next s)) (request_obj q) (option_map (map control_args) c')) with (message_obj (c_next s) (request_obj q) c').
    destruct (toWire (message_obj (c_next s) (request_obj q) c')) as [w|e] eqn:W.
    - assert (Q : forall s1 r, c_next s1 = c_next s + 1 -> c_trace s1 = c_trace s ++ r -> (r = [] \/ r = [TSent (c_next s) (request_obj q) tls]) -> keeps s (emit (TWritten w) s1)).
      { intros s1 r N T R. split; [cbn; lia|]. intros ms [A B C D E F G H]. exists [(c_next s, q, c')].
        assert (NI : ~ In (c_next s) (map mid ms)) by (intros X; apply D in X; lia).
        assert (TR : c_trace (emit (TWritten w) s1) = c_trace s ++ r ++ [TWritten w]) by (cbn; now rewrite T, app_assoc).
        constructor; rewrite ?TR.
        - rewrite !writes_app. replace (writes_of r) with (@nil bytes) by (destruct R as [->| ->]; reflexivity). cbn [app writes_of flat_map].
          apply Forall2_app; [exact A|]. constructor; [exact W|constructor].
        - rewrite map_app. apply NoDup_app_snoc; auto.
        - cbn. lia.
        - intros i. rewrite map_app. cbn [map]. intros I. cbn. apply in_app_or in I as [I|[<-|[]]]; [specialize (D i I); lia|cbn; lia].
        - intros i op tl I. cbn [emit c_next]. apply in_app_or in I as [I|I].
          + destruct (E i op tl I) as (X & q' & Eq & Y). split; [lia|]. exists q'. split; [exact Eq|]. destruct Y as [(cs & Y)|(Y1 & Y2)].
            * left. exists cs. apply in_or_app. now left.
            * right. split; [|exact Y2]. rewrite map_app. intros Z. apply in_app_or in Z as [Z|[<-|[]]]; [auto|cbn in X; lia].
          + apply in_app_or in I as [I|[I|[]]]; [|discriminate]. destruct R as [->| ->]; [destruct I|]. destruct I as [I|[]]. injection I as <- <- <-.
            split; [lia|]. exists q. split; [reflexivity|]. left. exists c'. apply in_or_app. right. now left.
        - intros i v cc I. cbn [emit c_next]. apply in_app_or in I as [I|I]; [specialize (F i v cc I); lia|].
          apply in_app_or in I as [I|[I|[]]]; [|discriminate]. destruct R as [->| ->]; [destruct I|]. destruct I as [I|[]]. discriminate.
        - intros a i op tl b v cc X I. rewrite app_assoc in X. apply snoc_cases in X as [(_ & _ & X)|(b' & -> & X)]; [discriminate|].
          destruct R as [->| ->]; [rewrite app_nil_r in X; eapply G; eauto|]. apply snoc_cases in X as [(_ & -> & X)|(b'' & -> & X)]; [|eapply G; eauto].
          injection X as -> _ _. apply F in I. lia.
        - intros a i v r0 b X. rewrite app_assoc in X. apply snoc_cases in X as [(_ & _ & X)|(b' & -> & X)]; [discriminate|].
          destruct R as [->| ->]; [rewrite app_nil_r in X; eauto|]. apply snoc_cases in X as [(_ & _ & X)|(b'' & -> & X)]; [discriminate|eauto]. }
      destruct k; [eapply (Q _ [TSent _ _ _])|eapply (Q _ [TSent _ _ _])|eapply (Q _ [TSent _ _ _])|eapply (Q _ [])];
        first [reflexivity | now right | now left | cbn; now rewrite app_nil_r].
    - assert (Q : forall s1, c_next s1 = c_next s + 1 -> c_trace s1 = c_trace s ++ [TSent (c_next s) (request_obj q) tls] -> keeps s s1).
      { intros s1 N T. split; [lia|]. intros ms [A B C D E F G H]. exists []. rewrite app_nil_r.
        assert (NI : ~ In (c_next s) (map mid ms)) by (intros X; apply D in X; lia).
        constructor; rewrite ?T.
        - rewrite !writes_app. cbn. now rewrite app_nil_r.
        - exact B.
        - lia.
        - intros i I. specialize (D i I). lia.
        - intros i op tl I. apply in_app_or in I as [I|[I|[]]].
          + destruct (E i op tl I) as (X & Y). split; [lia|exact Y].
          + injection I as <- <- <-. split; [lia|]. exists q. split; [reflexivity|]. right. split; [exact NI|]. eauto.
        - intros i v cc I. apply in_app_or in I as [I|[I|[]]]; [specialize (F i v cc I); lia|discriminate].
        - intros a i op tl b v cc X I. apply snoc_cases in X as [(_ & -> & X)|(b'' & -> & X)]; [|eapply G; eauto].
          injection X as -> _ _. apply F in I. lia.
        - intros a i v r0 b X. apply snoc_cases in X as [(_ & _ & X)|(b' & -> & X)]; [discriminate|eauto]. }
      destruct k; [..|apply K1]; (eapply keeps_trans; [|now apply keeps_emit]); apply Q; reflexivity.
  Qed.
  Lemma keeps_act a s : lawful a -> keeps s (act a s).
  Proof. destruct a as [k op cs|]; cbn [act lawful]; [|intros _; kx]. intros (q & c & -> & ->). apply keeps_do_send. Qed.
  Lemma keeps_user_acts n : forall s, keeps s (user_acts choose n s).
  Proof.
    induction n as [|n IH]; intros s; cbn [user_acts]; [kx|]. eapply keeps_trans; [|apply IH].
    destruct (choose _) as [a|] eqn:E; [apply keeps_act; eauto|kx].
  Qed.
  Lemma keeps_user_runs s : keeps s (user_runs reps choose s). Proof. apply keeps_user_acts. Qed.
  Lemma keeps_cb i v s : keeps s (cbStartTLS i v s).
  Proof.
    unfold cbStartTLS. destruct v; try kx. repeat match goal with |- keeps _ (match ?x with _ => _ end) => destruct x; try kx end.
  Qed.
  Lemma keeps_fail_all n : forall s, keeps s (fail_all reps choose n s).
  Proof.
    induction n as [|n IH]; intros s; cbn [fail_all]; [kx|]. destruct (rev _) as [|(i & w) r]; [kx|].
    eapply keeps_trans; [|apply IH]. eapply keeps_trans; [|apply keeps_user_runs].
    eapply keeps_trans; [apply (keeps_state s (set_onwire (rev r) s)); [reflexivity|cbn; lia]|kx].
  Qed.
  Lemma keeps_handle tag i v c s : i < c_next s -> keeps s (fst (handle reps choose verdict (OMessage tag (VInt i) v c) s)).
  Proof.
    intros L. unfold handle. destruct (is_response v); [|kx]. cbv zeta.
    assert (Y : keeps s (emit (TGot i v c) s)) by now apply keeps_emit.
    destruct (i =? 0); [eapply keeps_trans; [exact Y|]; cbn [fst]; kx|].
    destruct (find _ _) as [(j & w)|]; [|exact Y]. destruct (w_handler w).
    - eapply keeps_trans; [exact Y|]. eapply keeps_trans; [apply keeps_user_runs|].
      match goal with |- context[TCalled i ?v ?r] => eapply keeps_trans; [apply (keeps_emit (TCalled i v r)); reflexivity|]; destruct r as [[]|] end; kx.
    - destruct (w_args w); [exact Y|]. eapply keeps_trans; [exact Y|].
      eapply keeps_trans; [apply (keeps_emit (TFired i v)); exact I|]. cbn [fst].
      eapply keeps_trans; [|eapply keeps_trans; [apply keeps_user_runs|kx]].
      destruct (w_tls w); [apply keeps_cb|kx].
  Qed.
  Lemma keeps_step s e : (forall b, e <> EData b) -> match e with EUser a => lawful a | _ => True end -> keeps s (step reps choose verdict s e).
  Proof.
    intros N L. destruct e; cbn [step].
    - destruct (c_connected s); kx.
    - now destruct (N b).
    - destruct (c_connected s) as [[]|]; try kx. unfold connectionLost. eapply keeps_trans; [|apply keeps_fail_all].
      eapply keeps_trans; [apply (keeps_state s (set_connected false s)); [reflexivity|cbn; lia]|kx].
    - now apply keeps_act.
    - destruct (c_due s) as [|n]; [kx|]. eapply keeps_trans; [apply (keeps_state s (set_due n s)); [reflexivity|cbn; lia]|]. unfold startTLS_now.
      destruct (c_connected _) as [[]|]; [destruct (c_onwire _); [apply (keeps_do_send KSend (Extended starttls_oid None) None true)|]| |];
        (eapply keeps_trans; [|apply keeps_user_runs]; kx).
    - kx.
  Qed.
  Lemma ci_0 next : 0 < next -> CI (c0 next) [].
  Proof.
    intros P. constructor; cbn; auto; try (now intros); try constructor.
    - intros a i op tls b v c E. destruct a; discriminate.
    - intros a i v r b E. destruct a; discriminate.
  Qed.

  (** Bytes that come *)
  Definition hears (s : cstate) (w : bytes) (m : Z * obj * option (list (pv * pv * pv))) : Prop :=
    exists o, reads ctx_top w o /\ client_check o = Ok true /\ response_message o m /\ fst (fst m) < c_next s.
  Definition waiting (buf : bytes) (ws : list bytes) : Prop := match ws with [] => buf = [] | w :: _ => (length buf < length w)%nat end.
  Lemma hears_nonempty s w m : hears s w m -> w <> [].
  Proof. intros (o & R & _). now apply element_reads, element_nonempty in R. Qed.
  Lemma hears_mono s s' w m : c_next s <= c_next s' -> hears s w m -> hears s' w m.
  Proof. intros L (o & A & B & C & D). exists o. repeat split; auto. lia. Qed.
  Lemma recv_prefix fuel : forall s ws ms x, (length (c_buffer s) < fuel)%nat -> Forall2 (hears s) ws ms -> c_buffer s ++ x = concat ws ->
    let s' := recv reps choose verdict fuel s in keeps s s' /\
    exists w1 w2 m1 m2, ws = w1 ++ w2 /\ ms = m1 ++ m2 /\ length w1 = length m1 /\ c_buffer s' ++ x = concat w2 /\
      gots (c_trace s') = gots (c_trace s) ++ m1 /\ (failed (c_trace s') \/ waiting (c_buffer s') w2).
  Proof.
    induction fuel as [|f IH]; intros s ws ms x L F E; [lia|]. cbn [recv].
    destruct F as [|w m ws ms R F].
    - cbn in E. apply app_eq_nil in E as (Eb & ->). rewrite Eb.
      change (decode ctx_top []) with (Ok (None : option obj, 0)). cbv iota beta zeta. split; [kx|].
      exists [], [], [], []. cbn [app length set_buffer c_buffer c_trace concat]. rewrite !app_nil_r. do 5 (split; [reflexivity|]). right. reflexivity.
    - cbn [concat] in E.
      assert (W : (exists b, c_buffer s = w ++ b /\ b ++ x = concat ws) \/ exists t, w = c_buffer s ++ t /\ t <> [] /\ x = t ++ concat ws).
      { apply app_split in E. destruct E as (l & [(A & B)|(A & B)]).
        - left. exists l. split; [exact A|]. now rewrite B.
        - destruct l as [|y l].
          + left. exists []. rewrite app_nil_r in *. split; [now rewrite A|]. cbn in B |- *. exact B.
          + right. exists (y :: l). split; [exact A|]. split; [discriminate|exact B]. }
      pose proof (hears_nonempty _ _ _ R) as NE. pose proof R as (o & R1 & C1 & M1 & B1).
      destruct W as [(b & Eb & Ex)|(t & Ew & Nt & Ex)].
      + rewrite Eb, (reads_decode _ _ _ b R1). cbv zeta. rewrite C1.
        destruct M1 as (tag & i & v & c & -> & Rv & ->). cbn in B1.
        set (s1 := set_buffer _ s). assert (K0 : keeps s s1) by kx.
        pose proof (keeps_handle tag i v c s1 B1) as K1.
        pose proof (handle_got reps choose verdict tag i v c s1 Rv) as (H1 & H2).
        destruct (handle reps choose verdict (OMessage tag (VInt i) v c) s1) as (s2 & r). cbn [fst] in H1, H2, K1.
        assert (B2 : c_buffer s2 = b) by (rewrite H1; unfold s1; cbn [c_buffer set_buffer]; now rewrite zdrop_app).
        destruct r as [u|e].
        * destruct (IH s2 ws ms x) as (K2 & w1 & w2 & m1 & m2 & -> & -> & G1 & G2 & G3 & G4).
          { rewrite B2. rewrite Eb, app_length in L. destruct w; [congruence|cbn in L; lia]. }
          { clear -F K0 K1. induction F; constructor; auto. eapply hears_mono; [|eassumption]. destruct K0, K1. lia. }
          { now rewrite B2. }
          split; [eapply keeps_trans; [exact K0|]; eapply keeps_trans; eauto|].
          exists (w :: w1), w2, ((i, v, c) :: m1), m2. cbn [app length]. split; [reflexivity|]. split; [reflexivity|]. split; [congruence|]. split; [exact G2|].
          split; [|exact G4]. rewrite G3, H2. unfold s1. cbn [c_trace set_buffer]. now rewrite <- app_assoc.
        * split; [eapply keeps_trans; [exact K0|]; eapply keeps_trans; [exact K1|kx]|].
          exists [w], ws, [(i, v, c)], ms. cbn [emit c_trace c_buffer]. split; [reflexivity|]. split; [reflexivity|]. split; [reflexivity|]. split; [now rewrite B2|].
          split; [|left; exists e; apply in_or_app; right; now left]. rewrite gots_app, H2. unfold s1. cbn. now rewrite app_nil_r.
      + assert (D : decode ctx_top (c_buffer s) = Err EInsufficient \/ c_buffer s = [] /\ decode ctx_top (c_buffer s) = Ok (None, 0)).
        { destruct (c_buffer s) as [|y p] eqn:Bu; [right; split; reflexivity|left]. eapply decode_prefix; eauto. discriminate. }
        assert (LB : (length (c_buffer s) < length w)%nat) by (rewrite Ew, app_length; destruct t; [congruence|cbn; lia]).
        destruct D as [->|(Bn & ->)].
        * split; [kx|]. exists [], (w :: ws), [], (m :: ms). cbn [app length]. rewrite app_nil_r. do 3 (split; [reflexivity|]). split; [exact E|]. split; [reflexivity|]. right. exact LB.
        * cbv zeta. split; [kx|]. exists [], (w :: ws), [], (m :: ms). cbn [app length c_buffer set_buffer c_trace]. rewrite app_nil_r.
          change (zdrop 0 (c_buffer s)) with (c_buffer s). do 3 (split; [reflexivity|]). split; [exact E|]. split; [reflexivity|]. right. exact LB.
  Qed.
End Client.
