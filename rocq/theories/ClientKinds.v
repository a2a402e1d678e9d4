(** What becomes of a request depends on the method it was sent with. *)
From Verif Require Import Base BaseFacts BerModel LdapModel StreamModel ClientModel ClientSpec ClientProofs.

Lemma is_resp v : is_response v = true -> a_response v.
Proof. unfold a_response. destruct v; try discriminate; intros _; eauto 12. Qed.

Section Kinds.
  Variable reps : list tev -> nat.
  Variable choose : list tev -> option useract.
  Variable verdict : list tev -> res bool.
  Variables (i : Z) (w0 : slot).

  Record KI (s : cstate) : Prop := {
    k_wire : forall w, In (i, w) (c_onwire s) -> w = w0;
    k_next : i < c_next s;
    k_fired : forall v, In (TFired i v) (c_trace s) -> w_handler w0 = false;
    k_called : forall v r, In (TCalled i v r) (c_trace s) -> w_handler w0 = true;
    k_got : forall j v c, In (TGot j v c) (c_trace s) -> a_response v }.
  Definition neutral (e : tev) : Prop := match e with TFired j _ | TCalled j _ _ => j <> i | TGot _ v _ => a_response v | _ => True end.

  Lemma ki_emit e s : KI s -> neutral e -> KI (emit e s).
  Proof.
    intros [W N F C G] X. split; [exact W|exact N| | |]; cbn [emit c_trace].
    - intros v I. apply in_app_or in I as [I|[I|[]]]; [exact (F v I)|]. subst e. now destruct X.
    - intros v r I. apply in_app_or in I as [I|[I|[]]]; [exact (C v r I)|]. subst e. now destruct X.
    - intros j v c I. apply in_app_or in I as [I|[I|[]]]; [exact (G j v c I)|]. subst e. exact X.
  Qed.
  Lemma ki_next n s : KI s -> c_next s <= n -> KI (set_next n s).
  Proof. intros [W N F C G] L. split; auto. cbn. lia. Qed.
  Lemma ki_wire l s : KI s -> (forall w, In (i, w) l -> w = w0) -> KI (set_onwire l s).
  Proof. intros [W N F C G] L. split; auto. Qed.
  Lemma ki_other s s' : KI s -> c_onwire s' = c_onwire s -> c_next s' = c_next s -> c_trace s' = c_trace s -> KI s'.
  Proof. intros [W N F C G] E1 E2 E3. split; rewrite ?E1, ?E2, ?E3; auto. Qed.
  Lemma ki_del j s : KI s -> KI (set_onwire (dict_del j (c_onwire s)) s).
  Proof. intros K. apply ki_wire; [exact K|]. intros w I. apply filter_In in I as (I & _). exact (k_wire _ K w I). Qed.
  Lemma ki_send k op cs tls s : KI s -> KI (do_send k op cs tls s).
  Proof.
    intros K. unfold do_send, raised. destruct (c_connected s) as [[]|]; try (apply ki_emit; [exact K|exact I]). cbv zeta.
    assert (K1 : KI (set_next (c_next s + 1) s)) by (apply ki_next; [exact K|lia]). pose proof (k_next _ K) as NX.
    assert (A : forall w, KI (set_onwire (c_onwire (set_next (c_next s + 1) s) ++ [(c_next s, w)]) (set_next (c_next s + 1) s))).
    { intros w. apply ki_wire; [exact K1|]. intros w' J. apply in_app_or in J as [J|[J|[]]]; [exact (k_wire _ K w' J)|]. injection J as E _. lia. }
    destruct (dict_has _ _); [apply ki_emit; [exact K1|exact I]|]. destruct (negb _); [apply ki_emit; [exact K1|exact I]|].
    destruct k; destruct (toWire _); apply ki_emit; try exact I; try (apply ki_emit; [apply A|exact I]); exact K1.
  Qed.
  Lemma ki_act a s : KI s -> KI (act a s).
  Proof. intros K. destruct a; [now apply ki_send|]. now apply (ki_other s). Qed.
  Lemma ki_acts n : forall s, KI s -> KI (user_acts choose n s).
  Proof. induction n as [|n IH]; intros s K; cbn [user_acts]; [exact K|]. apply IH. destruct (choose _); [now apply ki_act|exact K]. Qed.
  Lemma ki_runs s : KI s -> KI (user_runs reps choose s).
  Proof. apply ki_acts. Qed.
  Lemma ki_cb j v s : KI s -> KI (cbStartTLS j v s).
  Proof.
    intros K. unfold cbStartTLS. destruct v; try exact K. repeat match goal with |- KI (match ?x with _ => _ end) => destruct x; try exact K end; apply ki_emit; (exact K || exact I).
  Qed.
  Lemma ki_handle o s : KI s -> KI (fst (handle reps choose verdict o s)).
  Proof.
    intros K. unfold handle. destruct o; try exact K. destruct (is_response _) eqn:RS; [|exact K]. match goal with |- context[match ?x with VNone => _ | _ => _ end] => destruct x as [|j|] end; try exact K. cbv zeta.
    match goal with |- context[TGot j ?v ?c] => set (e := TGot j v c) end.
    assert (Y : KI (emit e s)). { apply ki_emit; [exact K|]. apply is_resp. exact RS. }
    destruct (j =? 0); [apply ki_emit; [exact Y|exact I]|].
    destruct (find _ _) as [(j' & w)|] eqn:F; [|exact Y]. apply find_some in F as (F & E). cbn [fst] in E. apply Z.eqb_eq in E. subst j'.
    assert (WH : j = i -> w = w0) by (intros ->; exact (k_wire _ Y w F)).
    destruct (w_handler w) eqn:HD.
    - match goal with |- context[TCalled j ?v ?r] => assert (Z1 : KI (emit (TCalled j v r) (user_runs reps choose (emit e s)))) end.
      { pose proof (ki_runs _ Y) as K2. destruct (Z.eq_dec j i) as [->|NE]; [|apply ki_emit; [exact K2|exact NE]]. pose proof (WH eq_refl) as E0. subst w. destruct K2 as [W N FI C G]. split; [exact W|exact N| | |].
        - intros v J. cbn [emit c_trace] in J. apply in_app_or in J as [J|[J|[]]]; [exact (FI v J)|discriminate].
        - intros; exact HD.
        - intros j v c J. cbn [emit c_trace] in J. apply in_app_or in J as [J|[J|[]]]; [exact (G j v c J)|discriminate]. }
      match goal with |- context[TCalled j ?v ?r] => destruct r as [[]|] end; cbn [fst]; [|exact Z1|exact Z1]. exact (ki_del j _ Z1).
    - destruct (w_args w); [exact Y|]. cbn [fst]. match goal with |- context[TFired j ?v] => assert (Z1 : KI (emit (TFired j v) (emit e s))) end.
      { destruct (Z.eq_dec j i) as [->|NE]; [|apply ki_emit; [exact Y|exact NE]]. pose proof (WH eq_refl) as E0. subst w. destruct Y as [W N FI C G]. split; [exact W|exact N| | |].
        - intros; exact HD.
        - intros v r J. cbn [emit c_trace] in J. apply in_app_or in J as [J|[J|[]]]; [exact (C v r J)|discriminate].
        - intros j v c J. cbn [emit c_trace] in J. apply in_app_or in J as [J|[J|[]]]; [exact (G j v c J)|discriminate]. }
      apply ki_del. apply ki_runs. destruct (w_tls w); [now apply ki_cb|exact Z1].
  Qed.
  Lemma ki_recv fuel : forall s, KI s -> KI (recv reps choose verdict fuel s).
  Proof.
    induction fuel as [|f IH]; intros s K; cbn [recv]; [apply ki_emit; [exact K|exact I]|]. destruct (decode _ _) as [(o & n)|e].
    - cbv zeta. assert (Y : KI (set_buffer (zdrop n (c_buffer s)) s)) by now apply (ki_other s).
      destruct o as [o|]; [|exact Y]. destruct (client_check o) as [[]|]; [|exact Y|apply ki_emit; [exact Y|exact I]].
      pose proof (ki_handle o _ Y) as H. destruct (handle _ _ _ o _) as (s2 & [|]); cbn in H; [now apply IH|apply ki_emit; [exact H|exact I]].
    - destruct e; first [exact K|apply ki_emit; [exact K|exact I]].
  Qed.
  Lemma ki_fail n : forall s, KI s -> KI (fail_all reps choose n s).
  Proof.
    induction n as [|n IH]; intros s K; cbn [fail_all]; [exact K|]. destruct (rev (c_onwire s)) as [|(j & w) r] eqn:R; [exact K|]. apply IH, ki_runs, ki_emit; [|exact I].
    apply ki_wire; [exact K|]. intros w' J. apply (k_wire _ K). apply in_rev. rewrite R. right. now apply in_rev.
  Qed.
  Lemma ki_step s e : KI s -> KI (step reps choose verdict s e).
  Proof.
    intros K. destruct e; cbn [step].
    - destruct (c_connected s); [exact K|now apply (ki_other s)].
    - unfold dataReceived. apply ki_recv. now apply (ki_other s).
    - destruct (c_connected s) as [[]|]; try exact K. unfold connectionLost. apply ki_fail, ki_emit; [now apply (ki_other s)|exact I].
    - now apply ki_act.
    - destruct (c_due s) as [|n]; [exact K|]. assert (Y : KI (set_due n s)) by now apply (ki_other s). unfold startTLS_now.
      destruct (c_connected _) as [[]|]; [destruct (c_onwire _); [now apply ki_send|]| |]; apply ki_runs, ki_emit; (exact Y || exact I).
    - apply ki_next; [exact K|lia].
  Qed.
End Kinds.

Lemma fresh b s : Inv b s -> dict_has (c_next s) (c_onwire s) = false.
Proof.
  intros V. unfold dict_has. destruct (existsb _ _) eqn:E; [|reflexivity]. apply existsb_exists in E as ((j & w) & I & E). cbn [fst] in E. apply Z.eqb_eq in E. subst j.
  apply (in_map fst) in I. apply (i_mem _ _ V) in I as (I & _). apply (i_lt _ _ V) in I. cbn [fst] in I. lia.
Qed.
Lemma needs_expects op : needs_answer op = true <-> expects op.
Proof.
  split.
  - intros H. split; intros; intros ->; discriminate.
  - intros (A & C). destruct op; try reflexivity; destruct k; try reflexivity; exfalso; [eapply C; reflexivity|eapply A; reflexivity].
Qed.
Lemma sends_it reps choose verdict next es : 0 < next -> let s0 := run reps choose verdict next es in c_connected s0 = Some true ->
  forall k op cs, (k = KNoResponse <-> ~ expects op) -> let i := c_next s0 in
  exists s1, s1 = run reps choose verdict next (es ++ [EUser (USend k op cs)]) /\
    c_onwire s1 = c_onwire s0 ++ (match k with KNoResponse => [] | _ => [(i, kept k)] end) /\ c_next s1 = i + 1 /\
    c_trace s1 = c_trace s0 ++ (match k with KNoResponse => [] | _ => [TSent i op false] end) ++
      [match toWire (OMessage 0x10 (VInt i) op (sent_controls k cs)) with Ok w => TWritten w | Err x => TRaised x end].
Proof.
  intros P s0 CN k op cs H i. eexists. split; [reflexivity|]. unfold run. rewrite fold_left_app. fold (run reps choose verdict next es). fold s0. cbn [fold_left step act].
  destruct (run_ok reps choose verdict next es P) as (V & _). fold s0 in V. unfold do_send. rewrite CN. cbv zeta. change (c_onwire (set_next (c_next s0 + 1) s0)) with (c_onwire s0). rewrite (fresh _ _ V).
  assert (X : negb (Bool.eqb (needs_answer op) match k with KNoResponse => false | _ => true end) = false).
  { destruct (needs_answer op) eqn:NA.
    - apply needs_expects in NA. destruct k; try reflexivity. now destruct (proj1 H eq_refl).
    - assert (NE : ~ expects op) by (rewrite <- needs_expects; congruence). rewrite (proj2 H NE). reflexivity. }
  rewrite X. change (class_tag KSeq) with 0x10. fold i.
  destruct k; cbn [sent_controls kept]; match goal with |- context [toWire ?m] => destruct (toWire m) end; (split; [cbn; now rewrite ?app_nil_r|]; split; [reflexivity|]; cbn; now rewrite <- ?app_assoc).
Qed.
Lemma only_responses reps choose verdict next es j v c : In (TGot j v c) (c_trace (run reps choose verdict next es)) -> a_response v.
Proof.
  assert (K : KI (next - 1) (kept KSend) (run reps choose verdict next es)).
  { unfold run. assert (K0 : KI (next - 1) (kept KSend) (c0 next)) by (split; cbn; try tauto; lia). revert K0. generalize (c0 next). induction es as [|e l IH]; intros s K; [exact K|]. cbn [fold_left]. apply IH. now apply ki_step. }
  exact (k_got _ _ _ K j v c).
Qed.
Lemma kinds reps choose verdict next es : 0 < next -> let s0 := run reps choose verdict next es in c_connected s0 = Some true ->
  forall k op cs es', k <> KNoResponse -> expects op -> let i := c_next s0 in let s := run reps choose verdict next (es ++ EUser (USend k op cs) :: es') in
  (forall w, In (i, w) (c_onwire s) -> w = kept k) /\ (forall v, In (TFired i v) (c_trace s) -> w_handler (kept k) = false) /\ (forall v r, In (TCalled i v r) (c_trace s) -> w_handler (kept k) = true).
Proof.
  intros P s0 CN k op cs es' NK X i s.
  destruct (sends_it reps choose verdict next es P CN k op cs ltac:(split; [intros E; now destruct NK|intros E; now destruct E])) as (s1 & E1 & W & N & T). fold s0 i in W, N, T.
  assert (ES : s = fold_left (step reps choose verdict) es' s1). { unfold s. change (EUser (USend k op cs) :: es') with ([EUser (USend k op cs)] ++ es'). rewrite app_assoc. unfold run. rewrite fold_left_app. now rewrite E1. }
  destruct (run_ok reps choose verdict next es P) as (V & _). fold s0 in V.
  assert (NS : ~ In i (sents (c_trace s0))). { intros I. apply (i_lt _ _ V) in I. unfold i in I. lia. }
  assert (NF : forall e v, In e (c_trace s0) -> (e = TFired i v \/ exists r, e = TCalled i v r) -> False).
  { intros e v I Q. apply in_split in I as (a & b & E). destruct (delivered reps choose verdict next P es a e b i v E Q) as ((O & _) & _). apply NS. rewrite E. rewrite sents_app. apply in_or_app. now left. }
  assert (K : KI i (kept k) s1).
  { split.
    - intros w I. rewrite W in I. apply in_app_or in I as [I|I].
      + exfalso. apply NS. apply (in_map fst) in I. apply (i_mem _ _ V) in I. apply I.
      + destruct k; try (now destruct NK); destruct I as [I|[]]; now injection I as <-.
    - lia.
    - intros v I. exfalso. rewrite T in I. apply in_app_or in I as [I|I]; [exact (NF _ v I (or_introl eq_refl))|].
      apply in_app_or in I as [I|[I|[]]]; [destruct k; try destruct I as [I|[]]; try discriminate; destruct I|destruct (toWire _); discriminate].
    - intros v r I. exfalso. rewrite T in I. apply in_app_or in I as [I|I]; [exact (NF _ v I (or_intror (ex_intro _ r eq_refl)))|].
      apply in_app_or in I as [I|[I|[]]]; [destruct k; try destruct I as [I|[]]; try discriminate; destruct I|destruct (toWire _); discriminate].
    - intros j v c. rewrite E1. apply only_responses. }
  assert (KK : KI i (kept k) s). { rewrite ES. clear - K. revert s1 K. induction es' as [|e l IH]; intros s1 K; [exact K|]. cbn [fold_left]. apply IH. now apply ki_step. }
  destruct KK as [A1 A2 A3 A4 A5]. auto.
Qed.
