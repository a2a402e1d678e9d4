(** Proofs about ProxyBase: nothing is passed on after the response that ends an operation. *)
From Verif Require Import Base BaseFacts BerModel LdapModel ServerModel ClientModel ProxyModel ProxySpec ProxyProofs ProxyOrder ProxyEnd.

(** No response arrives; what is registered is registered under a new id *)
Record mild (s s' : pst) : Prop := mkMild {
  m_next : p_next s <= p_next s';
  m_wire : forall k, In k (map fst (l_wire (p_link s'))) -> In k (map fst (l_wire (p_link s))) \/ p_next s <= k < p_next s';
  m_ans : forall b, answers b (p_trace s') = answers b (p_trace s) }.
Lemma mild_refl s : mild s s. Proof. constructor; auto. lia. Qed.
Lemma mild_trans s t u : mild s t -> mild t u -> mild s u.
Proof.
  intros [A1 A2 A3] [B1 B2 B3]. constructor; [lia| |intros b; now rewrite B3].
  intros k I. apply B2 in I as [I|I]; [apply A2 in I as [I|I]; [auto|right; lia]|right; lia].
Qed.
Lemma answers_app b t u : answers b (t ++ u) = answers b t ++ answers b u. Proof. apply flat_map_app. Qed.
Lemma aside_answers b o : Forall aside o -> answers b o = [].
Proof. induction 1 as [|e o H _ IH]; [reflexivity|]. destruct e; try contradiction; exact IH. Qed.
Lemma frame_mild s s' : frame s s' -> mild s s'.
Proof.
  intros [_ _ N W (o & T & A) _ _ _]. constructor; [exact N|intros k I; left; exact (W k I)|]. intros b. rewrite T, answers_app, (aside_answers b o A). apply app_nil_r.
Qed.
Lemma mild_emit e s : match e with PArrived _ _ _ => False | _ => True end -> mild s (emit e s).
Proof. intros E. constructor; [cbn; lia|auto|]. intros b. cbn [emit p_trace]. rewrite answers_app. destruct e; try contradiction; apply app_nil_r. Qed.
Lemma mild_seqs q s : mild s (with_seqs q s). Proof. constructor; auto. cbn. lia. Qed.
Lemma mild_run_seq b q s : mild s (run_seq b q s).
Proof.
  destruct (run_seq_talk b q s) as (o & T & TK). destruct (same_run_seq b q s) as [_ _ _ L _ N _ _ _]. constructor; [lia|rewrite L; auto|].
  intros b'. rewrite T, answers_app. assert (E : forall l, Forall (talk b) l -> answers b' l = []) by (induction 1 as [|e o' H _ IH]; [reflexivity|]; cbn; destruct e; try contradiction; exact IH).
  rewrite (E o TK). apply app_nil_r.
Qed.

Section Final.
  Variable before : obj -> ctrls -> hook.
  Variable after : obj -> obj -> ctrls -> ahook.
  Variable use_tls options : bool.
  Notation step := (step before after use_tls options).
  Notation run := (run before after use_tls options).
  Notation forward := (forward before).
  Notation backlog := (backlog before).

  Lemma mild_told n id h s : mild s (told n id h s).
  Proof.
    unfold told. destruct h as [op' cs'|vs| |] eqn:EH; [| | |apply mild_refl]; rewrite <- EH; (eapply mild_trans; [apply (mild_emit (PTold n id h)); exact I|]); [|apply frame_mild, frame_bypass|now apply mild_emit].
    set (s1 := emit (PTold n id h) s). clearbody s1. clear s. rename s1 into s. destruct (p_client s); [|now apply mild_emit].
    assert (G : forall n l r, (n, l, r) = send_multi op' (mkPSlot id op' cs') (p_next s) (p_link s) -> mild s (with_link l (with_next n s))).
    { intros m l r E. unfold send_multi in E. destruct (l_up (p_link s)); [|injection E as -> -> ->; constructor; cbn; auto; lia].
      destruct (wire_has _ _); [injection E as -> -> ->; constructor; cbn; auto; lia|]. destruct (negb _); [injection E as -> -> ->; constructor; cbn; auto; lia|].
      injection E as -> -> _. constructor; cbn; [lia| |auto]. intros k I. rewrite map_app in I. apply in_app_or in I as [I|[I|[]]]; [auto|]. cbn in I. right. lia. }
    destruct (needs_answer op').
    - destruct (send_multi _ _ _ _) as ((m & l) & r). specialize (G m l r eq_refl). destruct r as [|e|e]; (eapply mild_trans; [exact G|]).
      + eapply mild_trans; [apply mild_seqs|]. now apply mild_emit.
      + eapply mild_trans; [apply mild_seqs|]. now apply mild_emit.
      + now apply mild_emit.
    - assert (L : p_next s <= fst (send_none op' (p_next s) (p_link s))). { unfold send_none. destruct (l_up _); [|cbn; lia]. destruct (wire_has _ _); [cbn; lia|]. destruct (needs_answer op'); cbn; lia. }
      destruct (send_none _ _ _) as (m & [|e|e]); cbn [fst] in L; (eapply mild_trans; [apply frame_mild, (frame_next m); exact L|now apply mild_emit]).
  Qed.
  Lemma mild_forward id op cs s : mild s (forward id op cs s).
  Proof.
    unfold ProxyModel.forward. destruct (p_client s); [|apply frame_mild, frame_queued]. set (s1 := emit (PAsk _ _ _ _) _). assert (M : mild s s1).
    { unfold s1. constructor; [cbn; lia|auto|]. intros b. cbn [emit p_trace with_asks]. rewrite answers_app. apply app_nil_r. }
    clearbody s1. destruct (before op cs) as [op' cs'|vs| |]; (eapply mild_trans; [exact M|]); try apply mild_told. constructor; auto. cbn. lia.
  Qed.
  Lemma mild_told_later n h s : mild s (told_later n h s).
  Proof. destruct (told_later_cases n h s) as [-> | (id & _ & _ & ->)]; [apply mild_refl|]. eapply mild_trans; [|apply mild_told]. constructor; auto. cbn. lia. Qed.
  Lemma mild_backlog l : forall s, mild s (backlog l s).
  Proof.
    induction l as [|((id & op) & cs) l IH]; intros s; [apply mild_refl|]. cbn [ProxyModel.backlog]. eapply mild_trans; [|apply IH]. eapply mild_trans; [apply frame_mild, (frame_queued l)|apply mild_forward].
  Qed.
  Lemma mild_handle msg s : mild s (handle before options msg s).
  Proof.
    unfold handle. destruct msg as [| | | | | | | | |tag id op cs| | | | | | | | | | | |]; try (now apply mild_emit). destruct (kind_of op); [|now apply mild_emit].
    set (body := match op with OExtReq _ _ _ => _ | _ => _ end).
    assert (E1 : mild s (emit (PGot id op cs) s)) by (now apply mild_emit).
    assert (FW : mild s (forward id op cs (emit (PGot id op cs) s))) by (eapply mild_trans; [exact E1|apply mild_forward]).
    assert (GO : mild s body).
    { unfold body. destruct op as [| | |k tg| | | | | | | | | | | | | | | | | |tg nm v]; try exact FW.
      - destruct k; try exact FW. eapply mild_trans; [exact E1|]. eapply mild_trans; [apply frame_mild, (frame_unbound true)|]. apply mild_forward.
      - destruct nm as [|z|nm]; try exact FW. destruct (bytes_eqb nm starttls_oid); [|exact FW]. eapply mild_trans; [exact E1|]. apply frame_mild, frame_start_tls. }
    clearbody body. destruct id as [|z|bs]; try exact GO. destruct z; [apply mild_refl|exact GO|exact GO].
  Qed.
  Lemma mild_later n r s : mild s (later n r s).
  Proof. unfold later. destruct (find _ _) as [(b & q)|]; [|apply mild_refl]. eapply mild_trans; [|apply mild_run_seq]. now apply mild_emit. Qed.
  Lemma got_mild b v w s : let s' := got_response after b v w s in p_next s' = p_next s /\ p_link s' = p_link s /\ forall b', answers b' (p_trace s') = answers b' (p_trace s) ++ if b =? b' then [v] else [].
  Proof.
    cbn zeta. destruct (same_got after b v w s) as [_ _ _ L _ N _ _ _]. split; [exact N|]. split; [exact L|]. intros b'.
    destruct (got_events after b v w s) as (o & T & PL & _). rewrite T, answers_app. f_equal. cbn. assert (E : answers b' o = []) by (clear T; induction PL as [|e l H _ IH]; [reflexivity|]; cbn; destruct e; try contradiction; exact IH).
    change (flat_map _ o) with (answers b' o). rewrite E. apply app_nil_r.
  Qed.

  Variable b : Z.
  Definition over (s : pst) : Prop := (forall k, In k (map fst (l_wire (p_link s))) -> k < p_next s) /\
    forall l v r, answers b (p_trace s) = l ++ v :: r -> ends v -> r = [] /\ ~ In b (map fst (l_wire (p_link s))) /\ b < p_next s.
  Lemma mild_over s s' : mild s s' -> over s -> over s'.
  Proof.
    intros [A1 A2 A3] (O1 & O2). split.
    - intros k I. apply A2 in I as [I|I]; [apply O1 in I|]; lia.
    - intros l v r E EN. rewrite A3 in E. destruct (O2 l v r E EN) as (Y1 & Y2 & Y3). split; [exact Y1|]. split; [|lia]. intros I. apply A2 in I as [I|I]; [contradiction|lia].
  Qed.
  Lemma ends_last v : ends v -> last_response v = true.
  Proof. destruct v as [| | | | | | | | | | |k| | | | | | | | | |]; cbn; try contradiction. now destruct k. Qed.
  Lemma response_over msg s : over s -> over (response after msg s).
  Proof.
    intros O. unfold response. destruct msg as [| | | | | | | | |tag id v cs| | | | | | | | | | | |]; try (eapply mild_over; [now apply mild_emit|exact O]).
    destruct (is_response v); [|eapply mild_over; [now apply mild_emit|exact O]]. destruct id as [|i|bs]; try (eapply mild_over; [now apply mild_emit|exact O]). destruct (i =? 0); [exact O|].
    destruct (find _ _) as [(k & w)|] eqn:F; [|eapply mild_over; [now apply mild_emit|exact O]]. apply find_some in F as (I & E). apply Z.eqb_eq in E. cbn in E. subst k.
    assert (IK : In i (map fst (l_wire (p_link s)))) by (apply in_map_iff; exists (i, w); auto).
    destruct (got_mild i v w s) as (N & L & A). cbn zeta in *. set (s1 := got_response after i v w s) in *. destruct O as (O1 & O2). set (s2 := if last_response v then _ else _).
    assert (N2 : p_next s2 = p_next s) by (unfold s2; destruct (last_response v); exact N).
    assert (T2 : p_trace s2 = p_trace s1) by (unfold s2; destruct (last_response v); reflexivity).
    assert (W2 : forall k, In k (map fst (l_wire (p_link s2))) -> In k (map fst (l_wire (p_link s)))).
    { intros k J. unfold s2 in J. destruct (last_response v); [|rewrite L in J; exact J]. cbn in J. rewrite L in J. apply in_map_iff in J as (x & EX & J). apply filter_In in J as (J & _). apply in_map_iff. exists x. auto. }
    split; [intros k J; rewrite N2; auto|]. intros l u r E EN. rewrite T2, A in E. destruct (i =? b) eqn:IB.
    - apply Z.eqb_eq in IB. rewrite IB in *. destruct r as [|y r _] using rev_ind.
      + apply app_inj_tail in E as (_ & E). subst u. split; [reflexivity|]. rewrite N2. split; [|auto]. unfold s2. rewrite (ends_last v EN). cbn. intros J. apply in_map_iff in J as (x & EX & J). apply filter_In in J as (_ & J). rewrite EX, IB, Z.eqb_refl in J. discriminate.
      + exfalso. change (l ++ u :: r ++ [y]) with (l ++ (u :: r) ++ [y]) in E. rewrite app_assoc in E. apply app_inj_tail in E as (E & _). destruct (O2 l u r E EN) as (_ & Y & _). contradiction.
    - rewrite app_nil_r in E. destruct (O2 l u r E EN) as (Y1 & Y2 & Y3). split; [exact Y1|]. rewrite N2. split; [|exact Y3]. intros J. apply Y2. auto.
  Qed.
  Lemma step_over s e : over s -> over (step s e).
  Proof.
    intros O. destruct e as [| | |ok|msg|msg| | |n h|n r|n]; cbn [ProxyModel.step].
    - destruct (p_phase s); exact O.
    - destruct (p_phase s); try exact O. assert (O' : over (with_link (mkLink true []) s)).
      { destruct O as (O1 & O2). split; [intros k []|]. intros l v r E EN. destruct (O2 l v r E EN) as (Y1 & Y2 & Y3). split; [exact Y1|]. split; [intros []|exact Y3]. }
      destruct use_tls; [exact O'|]. cbn [with_phase with_link p_conn]. destruct (p_conn s) as [[]|].
      + eapply mild_over; [apply mild_backlog|exact O'].
      + eapply mild_over; [apply frame_mild, frame_queued|]. eapply mild_over; [now apply mild_emit|exact O'].
      + eapply mild_over; [apply frame_mild, frame_queued|]. eapply mild_over; [now apply mild_emit|exact O'].
    - destruct (p_phase s); try exact O. eapply mild_over; [apply frame_mild, frame_refuse|exact O].
    - destruct (p_phase s); try exact O. destruct ok; [eapply mild_over; [apply mild_backlog|exact O]|eapply mild_over; [apply frame_mild, frame_refuse|exact O]].
    - destruct (p_conn s) as [[]|]; try exact O. eapply mild_over; [apply mild_handle|exact O].
    - destruct (l_up _); [|exact O]. now apply response_over.
    - destruct O as (O1 & O2). split; [intros k []|]. intros l v r E EN. destruct (O2 l v r E EN) as (Y1 & Y2 & Y3). split; [exact Y1|]. split; [intros []|exact Y3].
    - destruct (p_conn s) as [[]|]; try exact O.
      set (s1 := if p_client s && l_up (p_link s) then _ else _). assert (M : mild s s1).
      { unfold s1. destruct (p_client s && l_up (p_link s)); [|apply mild_refl]. destruct (p_unbound s); [now apply mild_emit|].
        eapply mild_trans; [apply frame_mild, (frame_next (p_next s + 1)); lia|]. eapply mild_trans; [apply (mild_emit PUnbind); exact I|]. eapply mild_trans; [apply (mild_emit PCloseServer); exact I|]. apply frame_mild, frame_unbound. }
      clearbody s1. eapply mild_over; [|exact (mild_over _ _ M O)]. eapply mild_trans; [apply frame_mild, (frame_client false)|]. eapply mild_trans; [|apply mild_emit; exact I]. constructor; [cbn; lia|auto|reflexivity].
    - eapply mild_over; [apply mild_told_later|exact O].
    - eapply mild_over; [apply mild_later|exact O].
    - eapply mild_over; [apply frame_mild, frame_next; lia|exact O].
  Qed.
  Lemma run_over next es : over (run next es).
  Proof.
    unfold ProxyModel.run. assert (G : over (p0 next)) by (split; [intros k []|intros [|? l] v r E; discriminate E]). revert G. generalize (p0 next). induction es as [|e es IH]; intros s O; [exact O|].
    cbn [fold_left]. apply IH. now apply step_over.
  Qed.
End Final.
