(** A client whose user keeps to the rules raises nothing. *)
From Verif Require Import Base BaseFacts BerModel BerSpec BerProofs LdapModel LdapSpec LdapProofs StreamModel StreamSpec StreamProofs DnModel EntryModel
  ServerModel ServerSpec LateModel LateSpec LateProofs ClientModel ClientSpec ClientProofs ClientStream PairModel PairSpec PairClient PairServer PairProofs PairFacts.

Lemma got_none b : flat_map got b = [] <-> forall i v c, ~ In (ClientModel.TGot i v c) b.
Proof.
  split.
  - intros G i v c I. apply in_split in I as (x & y & ->). rewrite flat_map_app in G. apply app_eq_nil in G as (_ & G). discriminate.
  - intros N. induction b as [|e b IH]; [reflexivity|]. cbn [flat_map]. rewrite IH by (intros i v c I; apply (N i v c); now right).
    destruct e; try reflexivity. destruct (N id v controls). now left.
Qed.

Section Good.
  Variable reps : list ClientModel.tev -> nat.
  Variable choose : list ClientModel.tev -> option useract.
  Variable verdict : list ClientModel.tev -> res bool.
  Hypothesis law : lawful_user choose.
  Hypothesis mild : modest_user choose.
  Hypothesis tells : tells_last verdict.
  Local Notation TFired := ClientModel.TFired.
  Local Notation TGot := ClientModel.TGot.

  Record MI (s : cstate) : Prop := {
    mi_sent : forall i op tls, In (TSent i op tls) (c_trace s) -> i < c_next s;
    mi_on : forall i w, In (i, w) (c_onwire s) -> i < c_next s /\ (w_args w = true -> w_handler w = true) /\
      forall op tls, In (TSent i op tls) (c_trace s) -> is_search op -> w_handler w = true;
    mi_fired : forall i v, In (TFired i v) (c_trace s) -> i < c_next s /\ forall op tls, In (TSent i op tls) (c_trace s) -> ~ is_search op;
    mi_wrote : forall w, In w (writes_of (c_trace s)) -> exists m, sends m w /\ (snd (fst m) = Unbind \/ In (mid m) (sents (c_trace s)));
    mi_err : ~ failed (c_trace s) }.
  Definition mk (s s' : cstate) : Prop := MI s -> MI s'.
  Lemma mk_state s s' : c_trace s' = c_trace s -> c_next s <= c_next s' -> (forall x, In x (c_onwire s') -> In x (c_onwire s)) -> mk s s'.
  Proof.
    intros T N O [A B C D E]. constructor; rewrite ?T; auto.
    - intros i op tls I. specialize (A _ _ _ I). lia.
    - intros i w I. destruct (B i w (O _ I)) as (X & Y). split; [lia|exact Y].
    - intros i v I. destruct (C i v I) as (X & Y). split; [lia|exact Y].
  Qed.
  Lemma mk_refl s : mk s s. Proof. intros H. exact H. Qed.
  Lemma mk_trans a b c : mk a b -> mk b c -> mk a c. Proof. unfold mk. auto. Qed.
  Lemma sents_snoc t e i : In i (sents t) -> In i (sents (t ++ [e])). Proof. intros I. rewrite sents_app. apply in_or_app. now left. Qed.
  Lemma failed_snoc t e : (forall x, e <> TError x) -> ~ failed t -> ~ failed (t ++ [e]).
  Proof. intros N F (x & I). apply in_app_or in I as [I|[I|[]]]; [apply F; now exists x|now apply (N x)]. Qed.
  Lemma mk_emit e s : (match e with TSent _ _ _ | TWritten _ | TError _ | ClientModel.TFired _ _ => False | _ => True end) -> mk s (emit e s).
  Proof.
    intros N [A B C D E].
    assert (SB : forall i op tls, In (TSent i op tls) (c_trace s ++ [e]) -> In (TSent i op tls) (c_trace s)) by (intros i op tls I; apply in_app_or in I as [I|[->|[]]]; [exact I|destruct N]).
    constructor; cbn [emit c_trace c_next c_onwire]; auto.
    - intros i op tls I. eauto.
    - intros i w I. destruct (B i w I) as (X & Y & Z). split; [exact X|]. split; [exact Y|]. intros op tls J. eauto.
    - intros i v I. apply in_app_or in I as [I|[->|[]]]; [|destruct N]. destruct (C i v I) as (X & Y). split; [exact X|]. intros op tls J. eauto.
    - intros w I. rewrite writes_app in I. apply in_app_or in I as [I|I]; [|destruct e; try now destruct I; destruct N].
      destruct (D w I) as (m & X & Y). exists m. split; [exact X|]. destruct Y as [Y|Y]; [now left|right; now apply sents_snoc].
    - apply failed_snoc; [|exact E]. intros x ->. exact N.
  Qed.
  Ltac mx := first [apply mk_state; [reflexivity|cbn; lia|intros ? ?; assumption] | now apply mk_emit].

  Lemma mk_do_send k q c tls s : modest (USend k (request_obj q) None) -> mk s (do_send k (request_obj q) (option_map (map control_args) c) tls s).
  Proof.
    intros (M1 & M2 & M3). unfold do_send, raised. destruct (c_connected s) as [[]|]; try mx. cbv zeta.
    assert (K1 : forall e, mk s (emit (TRaised e) (set_next (c_next s + 1) s))).
    { intros e. eapply mk_trans; [|now apply mk_emit]. mx. }
    destruct (dict_has _ _); [apply K1|]. destruct (negb _) eqn:NG; [apply K1|].
    set (c' := match k with KMulti _ _ => None | _ => c end).
    replace (match k with KMulti _ _ => None | _ => option_map (map control_args) c end) with (option_map (map control_args) c') by (unfold c'; destruct k; reflexivity).
    change (OMessage (class_tag KSeq) (VInt (c_next s)) (request_obj q) (option_map (map control_args) c')) with (message_obj (c_next s) (request_obj q) c').
    set (w0 := mkSlot match k with KMultiEx _ _ => true | _ => false end (has_handler k) (has_args k) tls).
    assert (Q : mk s (emit (TSent (c_next s) (request_obj q) tls) (set_onwire (c_onwire s ++ [(c_next s, w0)]) (set_next (c_next s + 1) s)))).
    { intros [A B C D E]. constructor; cbn [emit c_trace c_next c_onwire set_onwire set_next].
      - intros i op tl I. apply in_app_or in I as [I|[I|[]]]; [specialize (A _ _ _ I); lia|]. injection I as <- _ _. lia.
      - intros i w I. apply in_app_or in I as [I|[I|[]]].
        + destruct (B i w I) as (X & Y & Z). split; [lia|]. split; [exact Y|]. intros op tl J. apply in_app_or in J as [J|[J|[]]]; [eauto|]. injection J as <- _ _. lia.
        + injection I as <- <-. split; [lia|]. cbn [w_args w_handler w0]. split; [exact M2|]. intros op tl J S0. apply in_app_or in J as [J|[J|[]]]; [apply A in J; lia|].
          injection J as <- <-. now apply M1.
      - intros i v I. apply in_app_or in I as [I|[I|[]]]; [|discriminate]. destruct (C i v I) as (X & Y). split; [lia|].
        intros op tl J. apply in_app_or in J as [J|[J|[]]]; [eauto|]. injection J as <- _ _. lia.
      - intros w I. rewrite writes_app in I. cbn in I. rewrite app_nil_r in I. destruct (D w I) as (m & X & Y). exists m. split; [exact X|].
        destruct Y as [Y|Y]; [now left|right; now apply sents_snoc].
      - now apply failed_snoc. }
    destruct (toWire (message_obj (c_next s) (request_obj q) c')) as [w|e] eqn:W.
    - assert (WR : forall s1, mk s s1 -> (q = Unbind \/ In (c_next s) (sents (c_trace s1))) -> mk s (emit (TWritten w) s1)).
      { intros s1 K H MI0. destruct (K MI0) as [A B C D E].
        assert (SB : forall i op tl, In (TSent i op tl) (c_trace s1 ++ [TWritten w]) -> In (TSent i op tl) (c_trace s1)) by (intros i op tl I; apply in_app_or in I as [I|[I|[]]]; [exact I|discriminate]).
        constructor; cbn [emit c_trace c_next c_onwire]; auto.
        - intros i op tl I. eauto.
        - intros i x I. destruct (B i x I) as (X & Y & Z). split; [exact X|]. split; [exact Y|]. intros op tl J. eauto.
        - intros i v I. apply in_app_or in I as [I|[I|[]]]; [|discriminate]. destruct (C i v I) as (X & Y). split; [exact X|]. intros op tl J. eauto.
        - intros x I. rewrite writes_app in I. apply in_app_or in I as [I|[<-|[]]].
          + destruct (D x I) as (m & X & Y). exists m. split; [exact X|]. destruct Y as [Y|Y]; [now left|right; now apply sents_snoc].
          + exists (c_next s, q, c'). split; [exact W|]. cbn [mid fst snd]. destruct H as [H|H]; [now left|right; now apply sents_snoc].
        - now apply failed_snoc. }
      assert (IS : In (c_next s) (sents (c_trace s ++ [TSent (c_next s) (request_obj q) tls]))) by (rewrite sents_app; apply in_or_app; right; now left).
      destruct k; [apply WR; [exact Q|right; exact IS]|apply WR; [exact Q|right; exact IS]|apply WR; [exact Q|right; exact IS]|].
      apply WR; [mx|]. left. destruct q as [? ? [|]| | | | | | | | |]; try discriminate NG; [reflexivity|]. now destruct (M3 (class_tag KAbandon) id).
    - destruct k; [..|apply K1]; (eapply mk_trans; [exact Q|now apply mk_emit]).
  Qed.
  Lemma mk_act a s : lawful a -> modest a -> mk s (act a s).
  Proof. destruct a as [k op cs|]; cbn [act lawful]; [|intros _ _; mx]. intros (q & c & -> & ->) M. now apply mk_do_send. Qed.
  Lemma mk_user_acts n : forall s, mk s (user_acts choose n s).
  Proof.
    induction n as [|n IH]; intros s; cbn [user_acts]; [mx|]. eapply mk_trans; [|apply IH].
    destruct (choose _) as [a|] eqn:E; [apply mk_act; eauto|mx].
  Qed.
  Lemma mk_user_runs s : mk s (user_runs reps choose s). Proof. apply mk_user_acts. Qed.
  Lemma mk_cb i v s : mk s (cbStartTLS i v s).
  Proof.
    unfold cbStartTLS. destruct v; try mx. repeat match goal with |- mk _ (match ?x with _ => _ end) => destruct x; try mx end.
  Qed.
  Lemma mk_fail_all n : forall s, mk s (fail_all reps choose n s).
  Proof.
    induction n as [|n IH]; intros s; cbn [fail_all]; [mx|]. destruct (rev (c_onwire s)) as [|(i & w) r] eqn:R; [mx|].
    eapply mk_trans; [|apply IH]. eapply mk_trans; [|apply mk_user_runs].
    eapply mk_trans; [apply (mk_state s (set_onwire (rev r) s)); [reflexivity|cbn; lia|]|mx].
    cbn [set_onwire c_onwire]. intros x I. apply in_rev. rewrite R. right. now apply in_rev.
  Qed.
  Lemma mk_step s e : (forall b, e <> EData b) -> match e with EUser a => lawful a /\ modest a | _ => True end -> mk s (step reps choose verdict s e).
  Proof.
    intros N L. destruct e; cbn [step].
    - destruct (c_connected s); mx.
    - now destruct (N b).
    - destruct (c_connected s) as [[]|]; try mx. unfold connectionLost. eapply mk_trans; [|apply mk_fail_all].
      eapply mk_trans; [apply (mk_state s (set_connected false s)); [reflexivity|cbn; lia|auto]|mx].
    - now apply mk_act.
    - destruct (c_due s) as [|n]; [mx|]. eapply mk_trans; [apply (mk_state s (set_due n s)); [reflexivity|cbn; lia|auto]|]. unfold startTLS_now.
      destruct (c_connected _) as [[]|]; [destruct (c_onwire _); [apply (mk_do_send KSend (Extended starttls_oid None) None true); cbn; repeat split; [intros []|discriminate|discriminate]|]| |];
        (eapply mk_trans; [|apply mk_user_runs]; mx).
    - mx.
  Qed.
  Lemma mi_0 next : MI (c0 next).
  Proof. constructor; cbn; try (now intros). intros (x & []). Qed.

  (** A sequence of responses: all to requests that were sent, entries to searches, and nothing for a request after its result *)
  Definition good_seq (t : list ClientModel.tev) (l : list (Z * obj * option (list (pv * pv * pv)))) : Prop :=
    (forall l1 i v c l2 v' c' l3, l = l1 ++ (i, v, c) :: l2 ++ (i, v', c') :: l3 -> is_entry v) /\
    forall i v c, In (i, v, c) l -> i <> 0 /\ In i (sents t) /\ (is_entry v -> exists op tls, In (TSent i op tls) t /\ is_search op).
  Lemma good_more t r l : good_seq t l -> good_seq (t ++ r) l.
  Proof.
    intros (A & B). split; [exact A|]. intros i v c I. destruct (B i v c I) as (Z0 & X & Y). split; [exact Z0|]. split; [rewrite sents_app; apply in_or_app; now left|].
    intros E. destruct (Y E) as (op & tls & J & K). exists op, tls. split; [apply in_or_app; now left|exact K].
  Qed.
  Lemma conn_acts n : forall s, c_connected (user_acts choose n s) = c_connected s.
  Proof.
    induction n as [|n IH]; intros s; cbn [user_acts]; [reflexivity|]. rewrite IH. destruct (choose _) as [a|]; [|reflexivity].
    destruct a as [k op cs|]; cbn [act]; [|reflexivity]. unfold do_send. destruct (c_connected s) as [[]|] eqn:C; try (cbn; congruence). cbv zeta.
    destruct (dict_has _ _); [cbn; congruence|]. destruct (negb _); [cbn; congruence|]. destruct (toWire _), k; cbn; congruence.
  Qed.
  Lemma conn_cb i v s : c_connected (cbStartTLS i v s) = c_connected s.
  Proof.
    unfold cbStartTLS. destruct v; try reflexivity. repeat match goal with |- c_connected (match ?x with _ => _ end) = _ => destruct x; try reflexivity end.
  Qed.
  Lemma conn_handle o s : c_connected (fst (handle reps choose verdict o s)) = c_connected s.
  Proof.
    unfold handle. destruct o; try reflexivity. destruct (is_response _); [|reflexivity]. destruct id; try reflexivity. destruct (_ =? 0); [reflexivity|].
    destruct (find _ _) as [(j & w)|]; [|reflexivity]. destruct (w_handler w).
    - cbv zeta. destruct (verdict _) as [[]|]; cbn [fst set_onwire c_connected emit]; unfold user_runs; rewrite conn_acts; reflexivity.
    - destruct (w_args w); [reflexivity|]. cbn [fst set_onwire c_connected]. unfold user_runs. rewrite conn_acts. destruct (w_tls w); [rewrite conn_cb|]; reflexivity.
  Qed.
  Lemma entry_b v : an_entry v = true <-> is_entry v. Proof. destruct v; cbn; split; try discriminate; try (now intros []); auto. Qed.

  (** The request that a response is for is waiting *)
  Lemma waits s ms i v c rest : ClientProofs.Inv None s -> MI s -> CI verdict s ms -> c_connected s = Some true ->
    good_seq (c_trace s) (gots (c_trace s) ++ (i, v, c) :: rest) -> exists w, In (i, w) (c_onwire s) /\ find (fun x => fst x =? i) (c_onwire s) = Some (i, w).
  Proof.
    intros V M C CC (G1 & G2). destruct (G2 i v c) as (Z0 & S0 & _); [apply in_or_app; right; now left|].
    assert (NC : ~ In i (completions (c_trace s))).
    { intros I. apply in_flat_map in I as (e & J & K). pose proof J as J0. apply in_split in J as (a & b & E). pose proof (i_wf _ _ V a e b E) as L.
      assert (EARLY : forall v0 c0, In (TGot i v0 c0) a -> is_entry v0).
      { intros v0 c0 I. assert (I' : In (i, v0, c0) (gots (c_trace s))) by (rewrite E, gots_app; apply in_or_app; left; apply in_flat_map; eexists; split; [exact I|now left]).
        apply in_split in I' as (x & y & X). apply (G1 x i v0 c0 y v c rest). rewrite X, <- app_assoc. reflexivity. }
      destruct e as [| | | |j v0|j|j v0 r| | | | |]; cbn in K; try now destruct K.
      - destruct K as [->|[]]. destruct L as (_ & _ & c0 & a' & -> & _). assert (EN : is_entry v0) by (apply (EARLY v0 c0); apply in_or_app; right; now left).
        destruct (G2 i v0 c0) as (_ & _ & Y). { apply in_or_app. left. rewrite E, !gots_app. apply in_or_app. left. apply in_or_app. right. now left. }
        destruct (Y EN) as (op & tls & I & SE). destruct (mi_fired _ M i v0 J0) as (_ & F). exact (F op tls I SE).
      - destruct K as [->|[]]. destruct L as (_ & L). assert (X : In TLost (c_trace s)) by (rewrite E; apply in_or_app; now left). apply (i_lost _ _ V) in X. congruence.
      - destruct r as [[]|]; try now destruct K. destruct K as [->|[]]. destruct L as (_ & _ & a1 & b1 & c0 & -> & G).
        assert (EN : is_entry v0) by (apply (EARLY v0 c0); apply in_or_app; right; now left).
        pose proof (ci_called _ _ _ C _ _ _ _ _ E) as VR. rewrite (tells _ a1 i v0 c0 b1 eq_refl) in VR by (now apply got_none). apply entry_b in EN. rewrite EN in VR. discriminate. }
    assert (I : In i (map fst (c_onwire s))) by (apply (i_mem _ _ V); auto).
    destruct (find (fun x => fst x =? i) (c_onwire s)) as [(j & w)|] eqn:F.
    - apply find_some in F as (F1 & F2). cbn in F2. apply Z.eqb_eq in F2. subst j. eauto.
    - exfalso. apply in_map_iff in I as ((j & w) & E & I). cbn in E. subst j. pose proof (find_none _ _ F _ I) as X. cbn in X. rewrite Z.eqb_refl in X. discriminate.
  Qed.
  Lemma handle_good tag s ms i v c rest : ClientProofs.Inv None s -> MI s -> CI verdict s ms -> c_connected s = Some true -> is_response v = true ->
    good_seq (c_trace s) (gots (c_trace s) ++ (i, v, c) :: rest) ->
    exists s', handle reps choose verdict (OMessage tag (VInt i) v c) s = (s', Ok tt) /\ MI s'.
  Proof.
    intros V M C CC R G. destruct (waits _ _ _ _ _ _ V M C CC G) as (w & I & F). unfold handle. rewrite R.
    assert (Z0 : i <> 0) by (destruct G as (_ & G); destruct (G i v c) as (Z0 & _); [apply in_or_app; right; now left|exact Z0]).
    destruct (i =? 0) eqn:E; [apply Z.eqb_eq in E; congruence|]. cbn [emit c_onwire]. rewrite F. cbv zeta.
    assert (M1 : MI (emit (TGot i v c) s)) by (revert M; now apply mk_emit).
    assert (V1 : ClientProofs.Inv None (emit (TGot i v c) s)) by (apply inv_emit; [exact V|reflexivity|reflexivity|discriminate|exact Logic.I]).
    set (s0 := emit (TGot i v c) s) in *.
    destruct (mi_on _ M1 i w I) as (_ & A & H). destruct (w_handler w).
    - set (s1 := user_runs reps choose s0). assert (M2 : MI s1) by (now apply mk_user_runs).
      destruct (user_runs_ok reps choose None s0 V1) as (_ & (_ & _ & r & T & GR & _) & _). fold s1 in T.
      assert (VR : verdict (c_trace s1) = Ok (negb (an_entry v))).
      { rewrite T. unfold s0. cbn [emit c_trace]. rewrite <- app_assoc. apply (tells _ (c_trace s) i v c r); [reflexivity|]. now apply got_none. }
      rewrite VR. destruct (negb (an_entry v)); (eexists; split; [reflexivity|]).
      + revert M2. eapply mk_trans; [apply (mk_emit (TCalled i v (Ok true))); exact Logic.I|]. apply mk_state; [reflexivity|cbn; lia|].
        cbn [set_onwire c_onwire]. intros x X. unfold dict_del in X. apply filter_In in X. apply X.
      + revert M2. now apply mk_emit.
    - destruct (w_args w); [now specialize (A eq_refl)|]. eexists. split; [reflexivity|].
      assert (M2 : MI (emit (TFired i v) s0)).
      { destruct M1 as [B1 B2 B3 B4 B5].
        assert (SB : forall j op tls, In (TSent j op tls) (c_trace s0 ++ [TFired i v]) -> In (TSent j op tls) (c_trace s0)) by (intros j op tls J; apply in_app_or in J as [J|[J|[]]]; [exact J|discriminate]).
        constructor; cbn [emit c_trace c_next c_onwire].
        - intros j op tls J. eauto.
        - intros j x J. destruct (B2 j x J) as (X & Y & Z1). split; [exact X|]. split; [exact Y|]. intros op tls K. eauto.
        - intros j v0 J. apply in_app_or in J as [J|[J|[]]].
          + destruct (B3 j v0 J) as (X & Y). split; [exact X|]. intros op tls K. eauto.
          + injection J as -> _. split; [apply (B2 j w I)|]. intros op tls K SE. apply SB in K. specialize (H op tls K SE). discriminate.
        - intros x J. rewrite writes_app in J. cbn in J. rewrite app_nil_r in J. destruct (B4 x J) as (m & X & Y). exists m. split; [exact X|].
          destruct Y as [Y|Y]; [now left|right; now apply sents_snoc].
        - now apply failed_snoc. }
      revert M2. eapply mk_trans; [|eapply mk_trans; [apply mk_user_runs|apply mk_state; [reflexivity|cbn; lia|]]].
      + destruct (w_tls w); [apply mk_cb|apply mk_refl].
      + cbn [set_onwire c_onwire]. intros x X. unfold dict_del in X. apply filter_In in X. apply X.
  Qed.
  Lemma recv_good fuel : forall s ws ms x cms, (length (c_buffer s) < fuel)%nat -> Forall2 (hears s) ws ms -> c_buffer s ++ x = concat ws ->
    Good s -> MI s -> CI verdict s cms -> c_connected s = Some true -> good_seq (c_trace s) (gots (c_trace s) ++ ms) -> MI (recv reps choose verdict fuel s).
  Proof.
    induction fuel as [|f IH]; intros s ws ms x cms L F E GD M C CC G; [lia|]. cbn [recv].
    destruct F as [|w m ws ms R F].
    - cbn in E. apply app_eq_nil in E as (Eb & ->). rewrite Eb.
      change (decode ctx_top []) with (Ok (None : option obj, 0)). cbv iota beta zeta. revert M. mx.
    - cbn [concat] in E.
      assert (W : (exists b, c_buffer s = w ++ b /\ b ++ x = concat ws) \/ exists t, w = c_buffer s ++ t /\ t <> [] /\ x = t ++ concat ws).
      { apply app_split in E. destruct E as (l & [(A & B)|(A & B)]).
        - left. exists l. split; [exact A|]. now rewrite B.
        - destruct l as [|y l].
          + left. exists []. rewrite app_nil_r in *. split; [now rewrite A|]. cbn in B |- *. exact B.
          + right. exists (y :: l). split; [exact A|]. split; [discriminate|exact B]. }
      pose proof (hears_nonempty _ _ _ R) as NE. pose proof R as (o & R1 & C1 & M1 & B1).
      destruct W as [(b & Eb & Ex)|(t & Ew & Nt & Ex)].
      + rewrite Eb, (reads_decode _ _ _ b R1). cbv zeta. rewrite C1.
        destruct M1 as (tag & i & v & c & -> & Rv & ->). cbn in B1.
        set (s1 := set_buffer _ s). assert (MS : MI s1) by (revert M; apply mk_state; [reflexivity|cbn; lia|auto]).
        assert (GD1 : Good s1). { destruct GD as (V & A & B). split; [now apply inv_buffer|]. split; assumption. }
        destruct (keeps_state verdict s s1 eq_refl (Z.le_refl _)) as (_ & K0). destruct (K0 _ C) as (r0 & CS).
        destruct (handle_good tag s1 _ i v c ms (proj1 GD1) MS CS CC Rv G) as (s2 & HE & M2).
        pose proof (keeps_handle reps choose verdict law tag i v c s1 B1) as (NX & K1). destruct (K1 _ CS) as (r1 & C2).
        pose proof (handle_got reps choose verdict tag i v c s1 Rv) as (H1 & H2).
        pose proof (conn_handle (OMessage tag (VInt i) v c) s1) as CN.
        destruct (sext_handle reps choose verdict (OMessage tag (VInt i) v c) s1) as (tr & TR & _).
        destruct (handle_ok reps choose verdict (OMessage tag (VInt i) v c) s1 GD1) as [GD2|(e & HB & _)]; [|rewrite HE in HB; discriminate].
        rewrite HE in *. cbn [fst] in *.
        assert (B2 : c_buffer s2 = b) by (rewrite H1; unfold s1; cbn [c_buffer set_buffer]; now rewrite zdrop_app).
        eapply (IH s2 ws ms x).
        * rewrite B2. rewrite Eb, app_length in L. destruct w; [congruence|cbn in L; lia].
        * clear -F NX. induction F; constructor; auto. eapply hears_mono; [|eassumption]. exact NX.
        * now rewrite B2.
        * exact GD2.
        * exact M2.
        * exact C2.
        * now rewrite CN.
        * rewrite H2. change (gots (c_trace s1)) with (gots (c_trace s)). rewrite <- app_assoc. cbn [app]. rewrite TR. apply good_more. exact G.
      + assert (D : decode ctx_top (c_buffer s) = Err EInsufficient \/ c_buffer s = [] /\ decode ctx_top (c_buffer s) = Ok (None, 0)).
        { destruct (c_buffer s) as [|y p] eqn:Bu; [right; split; reflexivity|left]. eapply decode_prefix; eauto. discriminate. }
        destruct D as [->|(Bn & ->)]; [exact M|]. cbv zeta. revert M. mx.
  Qed.
End Good.
