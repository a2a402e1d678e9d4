(** Proofs about ProxyBase: requests. *)
From Coq Require Import Permutation.
From Verif Require Import Base BaseFacts BerModel LdapModel ServerModel ClientModel ProxyModel ProxySpec.

Lemma subseq_refl {A} (l : list A) : subseq l l. Proof. induction l; constructor; auto. Qed.
Lemma subseq_app {A} (l m l' m' : list A) : subseq l m -> subseq l' m' -> subseq (l ++ l') (m ++ m').
Proof.
  intros H H'. induction H as [m|x l m H IH|x l m H IH]; cbn [app]; [|constructor; auto|constructor; auto].
  induction m as [|y m IH]; cbn [app]; [exact H'|constructor; exact IH].
Qed.
Lemma subseq_trans {A} (l m n : list A) : subseq l m -> subseq m n -> subseq l n.
Proof.
  intros H K. revert l H. induction K as [n|x m n K IH|x m n K IH]; intros l H.
  - inversion H. constructor.
  - inversion H; subst; [constructor|constructor; auto|constructor; auto].
  - constructor. auto.
Qed.
Lemma subseq_skip {A} (l m m' : list A) : subseq l m -> subseq l (m ++ m').
Proof. intros H. rewrite <- (app_nil_r l). apply subseq_app; [exact H|constructor]. Qed.
Lemma subseq_drop {A} (l l' m : list A) : subseq (l ++ l') m -> subseq l m.
Proof. intros H. eapply subseq_trans; [|exact H]. apply subseq_skip, subseq_refl. Qed.
Lemma subseq_mid {A} (l o o' l' m : list A) : subseq o o' -> subseq (l ++ o' ++ l') m -> subseq (l ++ o ++ l') m.
Proof. intros O H. eapply subseq_trans; [|exact H]. apply subseq_app; [apply subseq_refl|]. apply subseq_app; [exact O|apply subseq_refl]. Qed.

Lemma forwarded_app t u : forwarded (t ++ u) = forwarded t ++ forwarded u. Proof. apply flat_map_app. Qed.
Lemma received_app t u : received (t ++ u) = received t ++ received u. Proof. apply flat_map_app. Qed.
Lemma asked_app t u : asked (t ++ u) = asked t ++ asked u. Proof. apply flat_map_app. Qed.
Lemma tolds_app t u : tolds (t ++ u) = tolds t ++ tolds u. Proof. apply flat_map_app. Qed.
Lemma wanted_app t u : wanted (t ++ u) = wanted t ++ wanted u. Proof. apply flat_map_app. Qed.
(** The calls of handleBeforeForwardRequest *)
Definition hist (s : pst) := (p_asks s, p_late s, asked (p_trace s), tolds (p_trace s)).

(** What concerns requests, and stays the same while responses are handled *)
Record same (s s' : pst) : Prop := mkSame {
  same_conn : p_conn s' = p_conn s; same_phase : p_phase s' = p_phase s; same_client : p_client s' = p_client s;
  same_link : p_link s' = p_link s; same_queued : p_queued s' = p_queued s; same_next : p_next s' = p_next s;
  same_f : forwarded (p_trace s') = forwarded (p_trace s); same_r : received (p_trace s') = received (p_trace s);
  same_h : hist s' = hist s }.
Lemma same_refl s : same s s. Proof. now constructor. Qed.
Lemma same_trans s t u : same s t -> same t u -> same s u.
Proof. intros [] []. constructor; congruence. Qed.
(** Events that are neither a request nor one passed on *)
Definition quiet (e : pev) : Prop := match e with PGot _ _ _ | PAsk _ _ _ _ | PTold _ _ _ | PForward _ _ _ _ => False | _ => True end.
Lemma same_emit e s : quiet e -> same s (emit e s).
Proof.
  intros Q. constructor; try reflexivity; unfold hist; cbn [emit p_trace p_asks p_late]; rewrite ?forwarded_app, ?received_app, ?asked_app, ?tolds_app; destruct e; try contradiction; cbn; now rewrite ?app_nil_r.
Qed.
Lemma same_seqs q s : same s (with_seqs q s). Proof. now constructor. Qed.
Lemma same_calls q s : same s (with_calls q s). Proof. now constructor. Qed.
Lemma same_unbound q s : same s (with_unbound q s). Proof. now constructor. Qed.
Lemma same_tls q s : same s (with_tls q s). Proof. now constructor. Qed.
Lemma reply_cases id b v s : (fst (reply id b v s) = s) \/ exists w, v = Some w /\ p_conn s = Some true /\ reply id b v s = (emit (PReply id w b) s, Ok tt).
Proof.
  unfold reply. destruct v as [w|]; [|now left]. destruct (p_conn s) as [[]|] eqn:C; try now left. destruct (toWire _); [|now left]. right. exists w. auto.
Qed.
Lemma same_reply id b v s : same s (fst (reply id b v s)).
Proof. destruct (reply_cases id b v s) as [-> | (w & _ & _ & ->)]; [apply same_refl|apply same_emit; exact I]. Qed.
Lemma same_reply_log id v s : same s (reply_log id v s).
Proof.
  unfold reply_log. pose proof (same_reply id None (Some v) s) as H. destruct (reply id None (Some v) s) as (s' & [u|e]); cbn [fst] in H; [exact H|].
  eapply same_trans; [exact H|apply same_emit; exact I].
Qed.
Lemma same_bypass id vs : forall s, same s (bypass id vs s).
Proof.
  induction vs as [|v vs IH]; intros s; [apply same_refl|]. cbn [bypass]. pose proof (same_reply id None v s) as H. destruct (reply id None v s) as (s' & [u|e]); cbn [fst] in H.
  - eapply same_trans; [exact H|apply IH].
  - eapply same_trans; [exact H|apply same_emit; exact I].
Qed.
Lemma same_drain id b items : forall s, same s (snd (drain id b items s)).
Proof.
  induction items as [|(n & d) items IH]; intros s; [apply same_refl|]. cbn [drain]. destruct d; try apply same_refl.
  pose proof (same_reply id (Some b) v s) as H. destruct (reply id (Some b) v s) as (s' & [u|e]); cbn [fst] in H.
  - eapply same_trans; [exact H|apply IH].
  - cbn [snd]. eapply same_trans; [exact H|apply same_emit; exact I].
Qed.
Lemma same_run_seq b q s : same s (run_seq b q s).
Proof.
  unfold run_seq. destruct (q_linked q); [|apply same_seqs]. pose proof (same_drain (q_id q) b (q_items q) s) as H. destruct (drain (q_id q) b (q_items q) s) as ((it & li) & s'). cbn [snd] in H.
  eapply same_trans; [exact H|apply same_seqs].
Qed.
Lemma same_start_tls opt id s : same s (start_tls opt id s).
Proof.
  unfold start_tls. destruct opt; [|apply same_reply_log]. destruct (p_tls s); [apply same_reply_log|].
  pose proof (same_reply id None (Some (ext_obj 0 (VBytes []) VNone)) s) as H. destruct (reply _ _ _ s) as (s' & [u|e]); cbn [fst] in H; (eapply same_trans; [exact H|]).
  - eapply same_trans; [apply (same_emit PTls); exact I|apply same_tls].
  - apply same_emit; exact I.
Qed.

Section Proofs.
  Variable before : obj -> ctrls -> hook.
  Variable after : obj -> obj -> ctrls -> ahook.
  Variable use_tls options : bool.
  Notation step := (step before after use_tls options).
  Notation run := (run before after use_tls options).
  Notation forward := (forward before).
  Notation backlog := (backlog before).
  Notation made := (made before).
  Notation F s := (forwarded (p_trace s)).
  Notation R s := (received (p_trace s)).
  Notation A s := (asked (p_trace s)).
  Notation T s := (tolds (p_trace s)).

  Lemma same_got b v w s : same s (got_response after b v w s).
  Proof.
    unfold got_response. set (s1 := emit (PArrived b (p_calls s) v) (with_calls (S (p_calls s)) s)).
    assert (H : same s s1) by (eapply same_trans; [apply same_calls|apply same_emit; exact I]). clearbody s1.
    destruct (after v (ps_op w) (ps_cs w)) as [r| |].
    - eapply same_trans; [exact H|]. eapply same_trans; [apply (same_emit (PHook (p_calls s) (Some r))); exact I|].
      destruct (find _ _) as [(? & q)|]; [apply same_run_seq|apply same_refl].
    - eapply same_trans; [exact H|]. destruct (find _ _) as [(? & q)|]; [apply same_run_seq|apply same_refl].
    - eapply same_trans; [exact H|]. eapply same_trans; [apply (same_emit (PHook (p_calls s) None)); exact I|].
      destruct (find _ _) as [(? & q)|]; [apply same_run_seq|apply same_refl].
  Qed.
  Lemma same_later n r s : same s (later n r s).
  Proof.
    unfold later. destruct (find _ _) as [(b & q)|]; [|apply same_refl]. eapply same_trans; [apply (same_emit (PHook n r)); exact I|apply same_run_seq].
  Qed.

  (** Message ids in use are below the next one. *)
  Definition fresh (s : pst) : Prop := Forall (fun x => fst x < p_next s) (l_wire (p_link s)).
  Lemma fresh_has {A} (l : list (Z * A)) n : Forall (fun x => fst x < n) l -> wire_has n l = false.
  Proof. induction 1 as [|x l H _ IH]; [reflexivity|]. cbn [wire_has existsb]. unfold wire_has in IH. rewrite IH. replace (fst x =? n) with false by lia. reflexivity. Qed.

  (** A request is passed on at most once. *)
  Definition told_as (n : nat) (id : pv) (h : hook) (s s' : pst) : Prop :=
    p_conn s' = p_conn s /\ p_phase s' = p_phase s /\ p_client s' = p_client s /\ p_queued s' = p_queued s /\ R s' = R s /\ l_up (p_link s') = l_up (p_link s) /\ fresh s' /\ p_next s <= p_next s' /\
    hist s' = (p_asks s, p_late s, A s, T s ++ [(n, id, h)]) /\
    exists o, F s' = F s ++ o /\ subseq o (wants id h) /\
      (forall N, p_client s = true -> l_up (p_link s) = true -> 0 <= p_next s -> p_next s' <= N -> (forall op' cs', h = HForward op' cs' -> encodable N op') -> o = wants id h).
  Lemma told_up n id h s : h <> HLater -> fresh s -> told_as n id h s (told n id h s).
  Proof.
    intros NL FR. set (s1 := emit (PTold n id h) s).
    assert (R1 : R s1 = R s) by (unfold s1; cbn [emit p_trace]; rewrite received_app; apply app_nil_r).
    assert (F1 : F s1 = F s) by (unfold s1; cbn [emit p_trace]; rewrite forwarded_app; apply app_nil_r).
    assert (H1 : hist s1 = (p_asks s, p_late s, A s, T s ++ [(n, id, h)])).
    { unfold hist, s1. cbn [emit p_trace p_asks p_late]. rewrite asked_app, tolds_app. cbn. now rewrite app_nil_r. }
    assert (QS : forall s', same s1 s' -> (p_client s = true -> wants id h = []) -> told_as n id h s s').
    { intros s' SM W. destruct SM as [B1 B2 B3 B4 B5 B6 B7 B8 B9]. unfold told_as, fresh. rewrite B1, B2, B3, B4, B5, B6, B7, B8, B9, R1, F1, H1. cbn [s1 emit p_conn p_phase p_client p_link p_queued p_next].
      repeat (split; [first [reflexivity|exact FR|lia]|]). exists []. rewrite app_nil_r. split; [reflexivity|]. split; [constructor|]. intros N C _ _ _ _. symmetry. exact (W C). }
    assert (LK : forall s' e l m, quiet e \/ (exists b op cs, e = PForward b op cs id /\ wants id h = [(id, op)]) ->
      p_conn s' = p_conn s -> p_phase s' = p_phase s -> p_client s' = p_client s -> p_queued s' = p_queued s -> p_link s' = l -> l_up l = l_up (p_link s) -> p_next s' = m -> p_next s <= m ->
      Forall (fun x => fst x < m) (l_wire l) -> p_asks s' = p_asks s -> p_late s' = p_late s -> p_trace s' = p_trace s1 ++ [e] ->
      (quiet e -> forall N, l_up (p_link s) = true -> 0 <= p_next s -> m <= N -> (forall op' cs', h = HForward op' cs' -> encodable N op') -> False) -> told_as n id h s s').
    { intros s' e l m K E1 E2 E3 E4 E5 E6 E7 E8 E9 E10 E11 E12 K'. unfold told_as, fresh. rewrite E1, E2, E3, E4, E5, E6, E7, E12, received_app, forwarded_app, R1, F1.
      split; [reflexivity|]. split; [reflexivity|]. split; [reflexivity|]. split; [reflexivity|]. split; [destruct K as [K|(b & op & cs & -> & _)]; [destruct e; try contradiction|]; cbn; apply app_nil_r|].
      split; [reflexivity|]. split; [exact E9|]. split; [exact E8|]. split.
      { rewrite <- H1. unfold hist. rewrite E10, E11, E12, asked_app, tolds_app. destruct K as [K|(b & op & cs & -> & _)]; [destruct e; try contradiction|]; cbn; now rewrite !app_nil_r. }
      exists (forwarded [e]). split; [reflexivity|]. destruct K as [K|(b & op & cs & -> & W)].
      - replace (forwarded [e]) with (@nil (pv * obj)) by (destruct e; try contradiction; reflexivity). split; [constructor|]. intros N C U L1 L2 EN. destruct (K' K N U L1 L2 EN).
      - rewrite W. split; [apply subseq_refl|reflexivity]. }
    unfold told. destruct h as [op' cs'|vs| |]; [|apply QS; [apply same_bypass|reflexivity]|apply QS; [apply same_emit; exact I|reflexivity]|congruence].
    fold s1. change (p_client s1) with (p_client s). change (p_next s1) with (p_next s). change (p_link s1) with (p_link s). destruct (p_client s) eqn:C.
    2: { apply QS; [apply same_emit; exact I|intros X; discriminate]. }
    assert (FW0 : Forall (fun x => fst x < p_next s + 1) (l_wire (p_link s))) by (eapply Forall_impl; [|exact FR]; cbn; intros x H; lia).
    destruct (needs_answer op') eqn:NA.
    - unfold send_multi. destruct (l_up (p_link s)) eqn:U.
      + rewrite (fresh_has _ _ FR), NA. cbn [negb].
        assert (FW : Forall (fun x => fst x < p_next s + 1) (l_wire (p_link s) ++ [(p_next s, mkPSlot id op' cs')])).
        { apply Forall_app. split; [exact FW0|constructor; [cbn; lia|constructor]]. }
        destruct (toWire _) as [w|e] eqn:W.
        * eapply (LK _ _ _ (p_next s + 1)); try reflexivity; try exact C; try exact U; try lia; try exact FW; try exact FW0; try exact FR; [right; eauto|intros []].
        * eapply (LK _ _ _ (p_next s + 1)); try reflexivity; try exact C; try exact U; try lia; try exact FW; try exact FW0; try exact FR; [left; exact I|]. intros _ N _ L1 L2 EN. destruct (EN op' cs' eq_refl (p_next s) ltac:(lia)) as (w & W').
          change (class_tag KSeq) with 0x10 in W. congruence.
      + eapply (LK _ _ _ (p_next s)); try reflexivity; try exact C; try exact U; try lia; try exact FW; try exact FW0; try exact FR; left; exact I.
    - unfold send_none. destruct (l_up (p_link s)) eqn:U.
      + rewrite (fresh_has _ _ FR), NA. destruct (toWire _) as [w|e] eqn:W.
        * eapply (LK _ _ _ (p_next s + 1)); try reflexivity; try exact C; try exact U; try lia; try exact FW; try exact FW0; try exact FR; [right; eauto|intros []].
        * eapply (LK _ _ _ (p_next s + 1)); try reflexivity; try exact C; try exact U; try lia; try exact FW; try exact FW0; try exact FR; [left; exact I|]. intros _ N _ L1 L2 EN. destruct (EN op' cs' eq_refl (p_next s) ltac:(lia)) as (w & W').
          change (class_tag KSeq) with 0x10 in W. congruence.
      + eapply (LK _ _ _ (p_next s)); try reflexivity; try exact C; try exact U; try lia; try exact FW; try exact FW0; try exact FR; left; exact I.
  Qed.
  (** The calls of handleBeforeForwardRequest: each gives one result, or its Deferred waits. *)
  Definition calls_ok (asks : nat) (late : list (nat * pv)) (a : list (pv * obj * ctrls)) (t : list (nat * pv * hook)) : Prop :=
    asks = length a /\
    (forall n id h, In (n, id, h) t -> h <> HLater /\ exists op cs, nth_error a n = Some (id, op, cs) /\ (before op cs = h \/ before op cs = HLater)) /\
    (forall n id, In (n, id) late -> exists op cs, nth_error a n = Some (id, op, cs) /\ before op cs = HLater) /\
    Permutation (map (fun x => fst (fst x)) t ++ map fst late) (seq 0 asks) /\
    (prompt before -> wanted t = flat_map made a).
  Definition hist_ok (s : pst) : Prop := calls_ok (p_asks s) (p_late s) (A s) (T s).
  Lemma nth_more {X} (a : list X) n x y : nth_error a n = Some x -> nth_error (a ++ [y]) n = Some x.
  Proof. intros H. rewrite nth_error_app1; [exact H|]. apply nth_error_Some. congruence. Qed.
  Lemma calls_ask_late asks late a t id op cs : calls_ok asks late a t -> before op cs = HLater -> calls_ok (S asks) (late ++ [(asks, id)]) (a ++ [(id, op, cs)]) t.
  Proof.
    intros (E & H1 & H2 & H3 & H4) HB. split; [rewrite app_length, E; cbn; lia|]. split.
    { intros n i h I. destruct (H1 n i h I) as (N & op' & cs' & NE & X). split; [exact N|]. exists op', cs'. split; [now apply nth_more|exact X]. }
    split.
    { intros n i I. apply in_app_or in I as [I|[I|[]]].
      - destruct (H2 n i I) as (op' & cs' & NE & X). exists op', cs'. split; [now apply nth_more|exact X].
      - injection I as <- <-. exists op, cs. split; [|exact HB]. rewrite E, nth_error_app2 by lia. now rewrite Nat.sub_diag. }
    split; [|intros P; destruct (P op cs HB)]. rewrite map_app, app_assoc, seq_S. apply Permutation_app; [exact H3|reflexivity].
  Qed.
  Lemma calls_ask_now asks late a t id op cs h : calls_ok asks late a t -> before op cs = h -> h <> HLater -> calls_ok (S asks) late (a ++ [(id, op, cs)]) (t ++ [(asks, id, h)]).
  Proof.
    intros (E & H1 & H2 & H3 & H4) HB NL. split; [rewrite app_length, E; cbn; lia|]. split.
    { intros n i h' I. apply in_app_or in I as [I|[I|[]]].
      - destruct (H1 n i h' I) as (N & op' & cs' & NE & X). split; [exact N|]. exists op', cs'. split; [now apply nth_more|exact X].
      - injection I as <- <- <-. split; [exact NL|]. exists op, cs. split; [|now left]. rewrite E, nth_error_app2 by lia. now rewrite Nat.sub_diag. }
    split.
    { intros n i I. destruct (H2 n i I) as (op' & cs' & NE & X). exists op', cs'. split; [now apply nth_more|exact X]. }
    split.
    - rewrite map_app, seq_S, <- app_assoc. cbn [map fst app]. etransitivity; [symmetry; apply Permutation_middle|]. etransitivity; [apply perm_skip; exact H3|]. apply Permutation_cons_append.
    - intros P. rewrite wanted_app, flat_map_app, (H4 P). cbn. now rewrite HB, !app_nil_r.
  Qed.
  Lemma filter_gone (n : nat) (l : list (nat * pv)) : ~ In n (map fst l) -> List.filter (fun x => negb (Nat.eqb (fst x) n)) l = l.
  Proof.
    induction l as [|x l IH]; [reflexivity|]. cbn. intros NI. destruct (Nat.eqb_spec (fst x) n) as [E|E]; [destruct NI; now left|]. cbn. rewrite IH; [reflexivity|]. tauto.
  Qed.
  Lemma filter_one (n : nat) (id : pv) (l : list (nat * pv)) : NoDup (map fst l) -> In (n, id) l ->
    Permutation (map fst l) (n :: map fst (List.filter (fun x => negb (Nat.eqb (fst x) n)) l)).
  Proof.
    induction l as [|x l IH]; [intros _ []|]. cbn. intros ND I. inversion ND as [|? ? NI ND']; subst. destruct (Nat.eqb_spec (fst x) n) as [E|E]; cbn.
    - rewrite filter_gone by (now rewrite <- E). now rewrite E.
    - destruct I as [->|I]; [destruct (E eq_refl)|]. etransitivity; [apply perm_skip, (IH ND' I)|]. apply perm_swap.
  Qed.
  Lemma NoDup_back {X} (l m : list X) : NoDup (l ++ m) -> NoDup m.
  Proof. induction l as [|x l IH]; [auto|]. cbn. intros H. inversion H. auto. Qed.
  Lemma calls_fire asks late a t n id h : calls_ok asks late a t -> In (n, id) late -> h <> HLater ->
    calls_ok asks (List.filter (fun x => negb (Nat.eqb (fst x) n)) late) a (t ++ [(n, id, h)]).
  Proof.
    intros (E & H1 & H2 & H3 & H4) I NL. destruct (H2 n id I) as (op & cs & NE & HB). split; [exact E|]. split.
    { intros n' i h' I'. apply in_app_or in I' as [I'|[I'|[]]]; [exact (H1 n' i h' I')|]. injection I' as <- <- <-. split; [exact NL|]. exists op, cs. auto. }
    split; [intros n' i I'; apply filter_In in I' as (I' & _); exact (H2 n' i I')|]. split; [|intros P; destruct (P op cs HB)].
    etransitivity; [|exact H3]. rewrite map_app, <- app_assoc. apply Permutation_app_head. cbn [map fst app]. symmetry. apply filter_one with (id := id); [|exact I].
    apply (NoDup_back _ _ (Permutation_NoDup (Permutation_sym H3) (seq_NoDup asks 0))).
  Qed.

  Definition core (s : pst) : Prop := fresh s /\ hist_ok s /\ subseq (F s) (wanted (T s)).
  (** What is to be passed on can be encoded with message ids below N. *)
  Definition fine (N : Z) (x : nat * pv * hook) : Prop := forall op' cs', snd x = HForward op' cs' -> encodable N op'.
  Definition ex (N : Z) (s : pst) : Prop := 0 <= p_next s /\ (p_next s <= N -> Forall (fine N) (T s) -> F s = wanted (T s)).
  Definition frame (s s' : pst) : Prop :=
    p_conn s' = p_conn s /\ p_phase s' = p_phase s /\ p_client s' = p_client s /\ R s' = R s /\ l_up (p_link s') = l_up (p_link s) /\ p_next s <= p_next s'.
  Lemma frame_refl s : frame s s. Proof. unfold frame. repeat (split; [first [reflexivity|lia]|]). lia. Qed.
  Lemma frame_trans s t u : frame s t -> frame t u -> frame s u.
  Proof. intros (A1 & A2 & A3 & A4 & A5 & A6) (B1 & B2 & B3 & B4 & B5 & B6). unfold frame. repeat (split; [congruence|]). lia. Qed.
  Lemma same_core s s' : same s s' -> core s -> core s'.
  Proof.
    intros [B1 B2 B3 B4 B5 B6 B7 B8 B9]. injection B9 as C1 C2 C3 C4. unfold core, fresh, hist_ok. now rewrite B4, B6, B7, C1, C2, C3, C4.
  Qed.
  Lemma same_frame s s' : same s s' -> frame s s'.
  Proof. intros [B1 B2 B3 B4 B5 B6 B7 B8 B9]. unfold frame. rewrite B1, B2, B3, B4, B6, B8. repeat (split; [reflexivity|]). lia. Qed.
  Lemma same_ex N s s' : same s s' -> ex N s -> ex N s'.
  Proof. intros [B1 B2 B3 B4 B5 B6 B7 B8 B9]. injection B9 as C1 C2 C3 C4. unfold ex. now rewrite B6, B7, C4. Qed.
  Lemma told_core n id h s : h <> HLater -> fresh s -> subseq (F s) (wanted (T s)) -> calls_ok (p_asks s) (p_late s) (A s) (T s ++ [(n, id, h)]) -> let s' := told n id h s in
    core s' /\ frame s s' /\ p_queued s' = p_queued s /\ A s' = A s /\ p_late s' = p_late s /\ (forall N, p_client s = true -> l_up (p_link s) = true -> ex N s -> ex N s').
  Proof.
    intros NL FR SS HO. cbn zeta. destruct (told_up n id h s NL FR) as (A1 & A2 & A3 & A4 & A5 & A6 & A7 & A8 & A9 & o & A10 & A11 & A12). injection A9 as C1 C2 C3 C4.
    split. { split; [exact A7|]. split; [unfold hist_ok; now rewrite C1, C2, C3, C4|]. rewrite A10, C4, wanted_app. cbn [wanted flat_map fst snd]. rewrite app_nil_r. now apply subseq_app. }
    split; [unfold frame; auto 8|]. split; [exact A4|]. split; [exact C3|]. split; [exact C2|]. intros N C U (X0 & X). split; [lia|]. intros L FN. rewrite C4 in *. apply Forall_app in FN as (FN1 & FN2).
    rewrite A10, wanted_app. cbn [wanted flat_map fst snd]. rewrite app_nil_r, X by (try lia; exact FN1). f_equal. apply (A12 N); try assumption. exact (Forall_inv FN2).
  Qed.
  Lemma forward_up id op cs s : p_client s = true -> core s -> let s' := forward id op cs s in
    core s' /\ frame s s' /\ p_queued s' = p_queued s /\ A s' = A s ++ [(id, op, cs)] /\ (forall N, l_up (p_link s) = true -> ex N s -> ex N s').
  Proof.
    intros C (FR & HO & SS). cbn zeta. unfold ProxyModel.forward. rewrite C. set (s1 := emit _ _).
    assert (A1 : A s1 = A s ++ [(id, op, cs)]) by (unfold s1; cbn [emit p_trace]; rewrite asked_app; reflexivity).
    assert (T1 : T s1 = T s) by (unfold s1; cbn [emit p_trace]; rewrite tolds_app; apply app_nil_r).
    assert (F1 : F s1 = F s) by (unfold s1; cbn [emit p_trace]; rewrite forwarded_app; apply app_nil_r).
    assert (FR1 : frame s s1) by (unfold frame, s1; cbn [emit p_trace with_asks p_conn p_phase p_client p_link p_next]; rewrite received_app, app_nil_r; repeat (split; [reflexivity|]); lia).
    destruct (before op cs) as [op' cs'|vs| |] eqn:HB.
    4: { split. { split; [exact FR|]. split; [|change (subseq (F s1) (wanted (T s1))); now rewrite F1, T1].
           change (calls_ok (S (p_asks s)) (p_late s ++ [(p_asks s, id)]) (A s1) (T s1)). rewrite A1, T1. now apply calls_ask_late. }
         split; [exact FR1|]. split; [reflexivity|]. split; [exact A1|]. intros N _ X. unfold ex. change (p_next _) with (p_next s). change (p_trace _) with (p_trace s1). now rewrite T1, F1. }
    all: match goal with |- context [told _ _ ?h _] => destruct (told_core (p_asks s) id h s1) as (B1 & B2 & B3 & B4 & _ & B5);
           [discriminate|exact FR|now rewrite F1, T1
           |change (calls_ok (S (p_asks s)) (p_late s) (A s1) (T s1 ++ [(p_asks s, id, h)])); rewrite A1, T1; apply calls_ask_now; [exact HO|exact HB|discriminate]
           |split; [exact B1|]; split; [exact (frame_trans _ _ _ FR1 B2)|]; split; [exact B3|]; split; [now rewrite B4|];
            intros N U X; apply B5; [exact C|exact U|]; unfold ex; change (p_next s1) with (p_next s); now rewrite T1, F1] end.
  Qed.
  Lemma backlog_up l : forall s, p_client s = true -> core s -> (l = [] -> p_queued s = []) ->
    let s' := backlog l s in
    core s' /\ frame s s' /\ p_queued s' = [] /\ A s' = A s ++ l /\ (forall N, l_up (p_link s) = true -> ex N s -> ex N s').
  Proof.
    induction l as [|((id & op) & cs) l IH]; intros s C K Q; cbn [ProxyModel.backlog].
    - cbn zeta. split; [exact K|]. split; [apply frame_refl|]. split; [exact (Q eq_refl)|]. split; [now rewrite app_nil_r|auto].
    - destruct (forward_up id op cs (with_queued l s) C K) as (A1 & A2 & A3 & A4 & A5). assert (A2' := A2). destruct A2' as (_ & _ & E3 & _ & E5 & _).
      destruct (IH (forward id op cs (with_queued l s))) as (B1 & B2 & B3 & B4 & B5); [rewrite E3; exact C|exact A1|intros ->; rewrite A3; reflexivity|].
      cbn zeta. split; [exact B1|]. split; [exact (frame_trans _ _ _ A2 B2)|]. split; [exact B3|]. split; [rewrite B4, A4, <- app_assoc; reflexivity|].
      intros N U X. apply B5; [rewrite E5; exact U|]. apply A5; [exact U|exact X].
  Qed.
  Lemma refuse_same l : forall s, let s' := refuse l s in
    p_conn s' = p_conn s /\ p_phase s' = p_phase s /\ p_client s' = p_client s /\ p_link s' = p_link s /\ p_next s' = p_next s /\ F s' = F s /\ R s' = R s /\ hist s' = hist s /\
    ((l = [] /\ p_queued s' = p_queued s) \/ exists k, p_queued s' = skipn k l).
  Proof.
    induction l as [|((id & op) & cs) l IH]; intros s; cbn [refuse].
    - destruct (same_emit PCloseClient s I) as [B1 B2 B3 B4 B5 B6 B7 B8 B9]. repeat (split; [assumption|]). left. auto.
    - set (s1 := with_queued l s).
      assert (GO : let s' := refuse l s1 in
         p_conn s' = p_conn s /\ p_phase s' = p_phase s /\ p_client s' = p_client s /\ p_link s' = p_link s /\ p_next s' = p_next s /\ F s' = F s /\ R s' = R s /\ hist s' = hist s /\
         (((id, op, cs) :: l = [] /\ p_queued s' = p_queued s) \/ exists k, p_queued s' = skipn k ((id, op, cs) :: l))).
      { destruct (IH s1) as (A1 & A2 & A3 & A4 & A5 & A6 & A7 & A9 & A8). cbn zeta. repeat (split; [assumption|]). right. destruct A8 as [(-> & A8)|(k & A8)]; [exists 1%nat; rewrite A8; reflexivity|exists (S k); exact A8]. }
      cbn zeta in *. destruct op; try exact GO.
      set (v := res_obj _ _ _ _). pose proof (same_reply id None (Some v) s1) as H. destruct (reply id None (Some v) s1) as (s2 & [u|e]); cbn [fst] in H.
      + destruct H as [B1 B2 B3 B4 B5 B6 B7 B8 B9]. destruct (IH s2) as (A1 & A2 & A3 & A4 & A5 & A6 & A7 & A9 & A8). unfold s1 in *. cbn [with_queued p_conn p_phase p_client p_link p_next p_queued p_trace] in *.
        split; [congruence|]. split; [congruence|]. split; [congruence|]. split; [congruence|]. split; [congruence|]. split; [congruence|]. split; [congruence|]. split; [etransitivity; [exact A9|exact B9]|].
        right. destruct A8 as [(-> & A8)|(k & A8)]; [exists 1%nat; rewrite A8, B5; reflexivity|exists (S k); exact A8].
      + assert (H2 := same_trans _ _ _ H (same_emit (PRaised e) s2 I)). destruct H2 as [B1 B2 B3 B4 B5 B6 B7 B8 B9]. unfold s1 in *. cbn [with_queued p_conn p_phase p_client p_link p_next p_queued p_trace] in *.
        repeat (split; [assumption|]). right. exists 1%nat. rewrite B5. reflexivity.
  Qed.

  (** *** The invariant *)
  Definition queue_ok (s : pst) : Prop :=
    (p_client s = true -> p_queued s = []) /\ core s /\ subseq (A s ++ p_queued s) (R s).
  Lemma same_queue_ok s s' : same s s' -> queue_ok s -> queue_ok s'.
  Proof.
    intros SM (Q & K & SS). split; [|split; [exact (same_core _ _ SM K)|]]; destruct SM as [B1 B2 B3 B4 B5 B6 B7 B8 B9]; [now rewrite B3, B5|].
    injection B9 as C1 C2 C3 C4. now rewrite C3, B5, B8.
  Qed.
  Lemma got_core id op cs s : core s -> core (emit (PGot id op cs) s).
  Proof.
    intros (FR & HO & SS). split; [exact FR|]. unfold hist_ok. cbn [emit p_trace p_asks p_late]. rewrite asked_app, tolds_app, forwarded_app, !app_nil_r. auto.
  Qed.
  Lemma handle_forward id op cs s : queue_ok s -> is_starttls op = false -> queue_ok (forward id op cs (emit (PGot id op cs) s)).
  Proof.
    intros (Q & K & SS) ST. pose proof (got_core id op cs s K) as K1. set (s1 := emit (PGot id op cs) s) in *.
    assert (R1 : R s1 = R s ++ [(id, op, cs)]) by (unfold s1; cbn [emit p_trace]; rewrite received_app; cbn; rewrite ST; reflexivity).
    assert (A1 : A s1 = A s) by (unfold s1; cbn [emit p_trace]; rewrite asked_app; cbn; apply app_nil_r).
    destruct (p_client s) eqn:C.
    - destruct (forward_up id op cs s1 C K1) as (B1 & B2 & B3 & B4 & _). change (p_queued s1) with (p_queued s) in B3. rewrite (Q eq_refl) in *.
      split; [intros _; exact B3|]. split; [exact B1|]. destruct B2 as (_ & _ & _ & B2 & _). rewrite B2, B3, B4, R1, A1, app_nil_r. rewrite app_nil_r in SS. apply subseq_app; [exact SS|apply subseq_refl].
    - assert (E : forward id op cs s1 = with_queued (p_queued s1 ++ [(id, op, cs)]) s1) by (unfold ProxyModel.forward; change (p_client s1) with (p_client s); now rewrite C). rewrite E.
      split; [change (p_client s = true -> p_queued s ++ [(id, op, cs)] = []); congruence|]. split; [exact K1|]. change (subseq (A s1 ++ p_queued s ++ [(id, op, cs)]) (R s1)). rewrite R1, A1, app_assoc.
      apply subseq_app; [exact SS|apply subseq_refl].
  Qed.
  Lemma got_starttls id op cs s : queue_ok s -> is_starttls op = true -> queue_ok (emit (PGot id op cs) s).
  Proof.
    intros (Q & K & SS) ST. split; [exact Q|]. split; [now apply got_core|]. cbn [emit p_trace p_queued]. rewrite asked_app, received_app. cbn. rewrite ST, !app_nil_r. exact SS.
  Qed.
  Lemma handle_ok msg s : queue_ok s -> queue_ok (handle before options msg s).
  Proof.
    intros Q. unfold handle. destruct msg as [| | | | | | | | |tag id op cs| | | | | | | | | | | |]; try (eapply same_queue_ok; [apply same_emit; exact I|exact Q]).
    destruct (kind_of op); [|eapply same_queue_ok; [apply same_emit; exact I|exact Q]].
    assert (GO : queue_ok (match op with
                | OExtReq _ (VBytes name) _ => if bytes_eqb name starttls_oid then start_tls options id (emit (PGot id op cs) s) else forward id op cs (emit (PGot id op cs) s)
                | ONull KUnbind _ => forward id op cs (with_unbound true (emit (PGot id op cs) s))
                | _ => forward id op cs (emit (PGot id op cs) s)
                end)).
    { destruct op as [| | |k tg| | | | | | | | | | | | | | | | | |tg nm v]; try (apply handle_forward; [exact Q|reflexivity]).
      - destruct k; try (apply handle_forward; [exact Q|reflexivity]). exact (handle_forward id (ONull KUnbind tg) cs (with_unbound true s) (same_queue_ok _ _ (same_unbound true s) Q) eq_refl).
      - destruct nm as [|z|nm]; try (apply handle_forward; [exact Q|reflexivity]).
        destruct (bytes_eqb nm starttls_oid) eqn:E; [eapply same_queue_ok; [apply same_start_tls|]; apply got_starttls; [exact Q|exact E]|apply handle_forward; [exact Q|exact E]]. }
    destruct id as [|z|bs]; try exact GO. destruct z; [exact Q|exact GO|exact GO].
  Qed.

  Lemma same_response msg s : let s' := response after msg s in
    p_conn s' = p_conn s /\ p_phase s' = p_phase s /\ p_client s' = p_client s /\ p_queued s' = p_queued s /\ p_next s' = p_next s /\ F s' = F s /\ R s' = R s /\
    l_up (p_link s') = l_up (p_link s) /\ incl (l_wire (p_link s')) (l_wire (p_link s)) /\ hist s' = hist s.
  Proof.
    assert (G : forall s', same s s' -> p_conn s' = p_conn s /\ p_phase s' = p_phase s /\ p_client s' = p_client s /\ p_queued s' = p_queued s /\ p_next s' = p_next s /\ F s' = F s /\ R s' = R s /\
      l_up (p_link s') = l_up (p_link s) /\ incl (l_wire (p_link s')) (l_wire (p_link s)) /\ hist s' = hist s).
    { intros s' [B1 B2 B3 B4 B5 B6 B7 B8 B9]. rewrite B4. repeat (split; [assumption|]). split; [reflexivity|split; [apply incl_refl|assumption]]. }
    cbn zeta. unfold response. destruct msg as [| | | | | | | | |tag id v cs| | | | | | | | | | | |]; try (apply G, same_emit; exact I).
    destruct (is_response v); [|apply G, same_emit; exact I]. destruct id as [|i|bs]; try (apply G, same_emit; exact I). destruct (i =? 0); [apply G, same_refl|].
    destruct (find _ _) as [(j & w)|]; [|apply G, same_emit; exact I]. destruct (last_response v); [|apply G, same_got].
    destruct (same_got i v w s) as [B1 B2 B3 B4 B5 B6 B7 B8 B9]. cbn [with_link p_conn p_phase p_client p_queued p_next p_trace p_link l_up l_wire]. rewrite B4. repeat (split; [assumption|]). split; [reflexivity|]. split; [|exact B9].
    intros x X. apply filter_In in X. tauto.
  Qed.
  Lemma with_client_ok s : queue_ok s -> p_client s = false -> queue_ok (backlog (p_queued s) (with_client true s)).
  Proof.
    intros (Q & K & SS) C. destruct (backlog_up (p_queued s) (with_client true s) eq_refl K (fun E => E)) as (B1 & (_ & _ & _ & B2 & _) & B3 & B4 & _).
    split; [intros _; exact B3|]. split; [exact B1|]. rewrite B2, B3, B4, app_nil_r. exact SS.
  Qed.
  Lemma skipn_sub {X} k : forall l : list X, subseq (skipn k l) l.
  Proof. induction k as [|k IH]; intros l; [apply subseq_refl|]. destruct l as [|x l]; [constructor|]. cbn [skipn]. constructor. apply IH. Qed.
  Lemma refuse_ok s : queue_ok s -> p_client s = false -> queue_ok (refuse (p_queued s) s).
  Proof.
    intros (Q & K & SS) C. destruct (refuse_same (p_queued s) s) as (A1 & A2 & A3 & A4 & A5 & A6 & A7 & A9 & A8). cbn zeta in *. injection A9 as C1 C2 C3 C4. unfold queue_ok, core, fresh, hist_ok.
    rewrite A3, A4, A5, A6, A7, C1, C2, C3, C4. split; [congruence|]. split; [exact K|]. destruct A8 as [(_ & ->)|(k & ->)]; [exact SS|]. eapply subseq_trans; [|exact SS]. apply subseq_app; [apply subseq_refl|apply skipn_sub].
  Qed.
  (** A Deferred of handleBeforeForwardRequest fires. *)
  Lemma told_later_cases n h s : told_later n h s = s \/ exists id, h <> HLater /\ In (n, id) (p_late s) /\
    told_later n h s = told n id h (with_late (List.filter (fun x => negb (Nat.eqb (fst x) n)) (p_late s)) s).
  Proof.
    unfold told_later. destruct (find _ (p_late s)) as [(m & id)|] eqn:E; [|left; destruct h; reflexivity]. apply find_some in E as (I & E). cbn [fst] in E. apply Nat.eqb_eq in E. subst m.
    destruct h; [right|right|right|now left]; exists id; (split; [discriminate|auto]).
  Qed.
  Lemma told_later_up n h s : core s -> let s' := told_later n h s in
    core s' /\ frame s s' /\ p_queued s' = p_queued s /\ A s' = A s /\ incl (p_late s') (p_late s) /\ (forall N, (p_late s <> [] -> p_client s = true) -> (p_client s = true -> l_up (p_link s) = true) -> ex N s -> ex N s').
  Proof.
    intros K. cbn zeta. destruct (told_later_cases n h s) as [-> | (id & NL & I & ->)].
    { split; [exact K|]. split; [apply frame_refl|]. split; [reflexivity|]. split; [reflexivity|]. split; [apply incl_refl|auto]. }
    destruct K as (FR & HO & SS). destruct (told_core n id h (with_late (List.filter (fun x => negb (Nat.eqb (fst x) n)) (p_late s)) s) NL FR SS) as (B1 & B2 & B3 & B4 & B6 & B5).
    { apply calls_fire; assumption. }
    split; [exact B1|]. split; [exact B2|]. split; [exact B3|]. split; [exact B4|]. split; [rewrite B6; intros x X; apply filter_In in X; tauto|].
    intros N LC CU X. assert (C : p_client s = true) by (apply LC; intros E; rewrite E in I; destruct I). apply B5; [exact C|exact (CU C)|exact X].
  Qed.
  (** The connection to the server is used only after it was set up. *)
  Definition phase_ok (s : pst) : Prop := p_phase s <> PhDone -> p_client s = false.
  Lemma handle_frame msg s : let s' := handle before options msg s in core s -> p_conn s' = p_conn s /\ p_phase s' = p_phase s /\ p_client s' = p_client s /\ l_up (p_link s') = l_up (p_link s).
  Proof.
    cbn zeta. intros K. assert (SM : forall s', same s s' -> p_conn s' = p_conn s /\ p_phase s' = p_phase s /\ p_client s' = p_client s /\ l_up (p_link s') = l_up (p_link s)).
    { intros s' [B1 B2 B3 B4 B5 B6 B7 B8 B9]. rewrite B4. auto. }
    unfold handle. destruct msg as [| | | | | | | | |tag id op cs| | | | | | | | | | | |]; try (apply SM, same_emit; exact I).
    destruct (kind_of op); [|apply SM, same_emit; exact I].
    assert (FW : forall s1, p_conn s1 = p_conn s -> p_phase s1 = p_phase s -> p_client s1 = p_client s -> p_link s1 = p_link s -> core s1 ->
      let s' := forward id op cs s1 in p_conn s' = p_conn s /\ p_phase s' = p_phase s /\ p_client s' = p_client s /\ l_up (p_link s') = l_up (p_link s)).
    { intros s1 E1 E2 E3 E4 K1. cbn zeta. destruct (p_client s1) eqn:C.
      - destruct (forward_up id op cs s1 C K1) as (_ & (A1 & A2 & A3 & A4 & A5 & _) & _). rewrite A1, A2, A3, A5, E4, C. auto.
      - unfold ProxyModel.forward. rewrite C. cbn. rewrite E4, C. auto. }
    pose proof (got_core id op cs s K) as K1.
    set (body := match op with OExtReq _ _ _ => _ | _ => _ end).
    assert (GO : p_conn body = p_conn s /\ p_phase body = p_phase s /\ p_client body = p_client s /\ l_up (p_link body) = l_up (p_link s)).
    { unfold body. destruct op as [| | |k tg| | | | | | | | | | | | | | | | | |tg nm v]; try (apply FW; first [reflexivity|exact K1]).
      - destruct k; apply FW; first [reflexivity|exact K1].
      - destruct nm as [|z|nm]; try (apply FW; first [reflexivity|exact K1]).
        destruct (bytes_eqb nm starttls_oid); [|apply FW; first [reflexivity|exact K1]]. destruct (same_start_tls options id (emit (PGot id (OExtReq tg (VBytes nm) v) cs) s)) as [B1 B2 B3 B4 B5 B6 B7 B8 B9].
        rewrite B1, B2, B3, B4. auto. }
    clearbody body. destruct id as [|z|bs]; try exact GO. destruct z; [apply SM, same_refl|exact GO|exact GO].
  Qed.
  Lemma core_by s s' : core s -> fresh s' -> hist s' = hist s -> F s' = F s -> core s'.
  Proof. intros (FR & HO & SS) FR' H E. injection H as C1 C2 C3 C4. split; [exact FR'|]. unfold hist_ok. now rewrite C1, C2, C3, C4, E. Qed.
  Lemma lost_frame s : let s1 := if p_client s && l_up (p_link s) then if p_unbound s then emit PCloseServer s else with_unbound true (emit PCloseServer (emit PUnbind (with_next (p_next s + 1) s))) else s in
    p_conn s1 = p_conn s /\ p_client s1 = p_client s /\ p_phase s1 = p_phase s /\ p_queued s1 = p_queued s /\ p_link s1 = p_link s /\ p_next s <= p_next s1 /\ F s1 = F s /\ R s1 = R s /\ hist s1 = hist s.
  Proof.
    cbn zeta. unfold hist. destruct (p_client s && l_up (p_link s)); [|repeat (split; [first [reflexivity|lia]|]); reflexivity].
    destruct (p_unbound s); cbn [emit with_unbound with_next p_conn p_client p_phase p_queued p_link p_next p_trace p_asks p_late]; rewrite ?forwarded_app, ?received_app, ?asked_app, ?tolds_app, ?app_nil_r;
      repeat (split; [first [reflexivity|lia|now rewrite ?app_nil_r]|]); now rewrite ?app_nil_r.
  Qed.
  Lemma step_ok s e : queue_ok s -> phase_ok s -> queue_ok (step s e) /\ phase_ok (step s e).
  Proof.
    intros Q P. destruct e as [| | |ok|msg|msg| | |n h|n r|n]; cbn [ProxyModel.step].
    - destruct (p_phase s) eqn:PH; [|auto|auto|auto]. split; [exact Q|]. intros _. apply P. congruence.
    - destruct (p_phase s) eqn:PH; try (split; [exact Q|exact P]). assert (C : p_client s = false) by (apply P; congruence).
      assert (Q1 : queue_ok (with_link (mkLink true []) s)) by (destruct Q as (Q & (FR & HO) & SS); split; [exact Q|split; [split; [constructor|exact HO]|exact SS]]).
      destruct use_tls; [split; [exact Q1|intros _; exact C]|]. cbn [with_phase with_link p_conn].
      assert (GONE : let s' := with_queued [] (emit PCloseServer (with_phase PhDone (with_link (mkLink true []) s))) in queue_ok s' /\ phase_ok s').
      { destruct Q1 as (Q1 & K1 & SS). pose proof (same_emit PCloseServer (with_link (mkLink true []) s) I) as [B1 B2 B3 B4 B5 B6 B7 B8 B9]. split; [|intros X; destruct (X eq_refl)]. split; [reflexivity|]. split.
        - apply (core_by _ _ K1); [constructor|exact B9|exact B7].
        - assert (C3 := f_equal (fun h => snd (fst h)) B9). cbn [hist fst snd] in C3. change (subseq (A (emit PCloseServer (with_link (mkLink true []) s)) ++ []) (R (emit PCloseServer (with_link (mkLink true []) s)))). rewrite C3, B8, app_nil_r. exact (subseq_drop _ _ _ SS). }
      destruct (p_conn s) as [[]|] eqn:CO; [|exact GONE|exact GONE].
      split; [exact (with_client_ok (with_phase PhDone (with_link (mkLink true []) s)) Q1 C)|]. intros X. destruct X.
      destruct (backlog_up (p_queued s) (with_client true (with_phase PhDone (with_link (mkLink true []) s))) eq_refl (proj1 (proj2 Q1)) (fun E => E)) as (_ & (_ & B2 & _) & _). exact B2.
    - destruct (p_phase s) eqn:PH; try (split; [exact Q|exact P]). assert (C : p_client s = false) by (apply P; congruence).
      split; [exact (refuse_ok (with_phase PhDone s) Q C)|]. intros X. destruct X. destruct (refuse_same (p_queued s) (with_phase PhDone s)) as (_ & A2 & _). exact A2.
    - destruct (p_phase s) eqn:PH; try (split; [exact Q|exact P]). assert (C : p_client s = false) by (apply P; congruence). destruct ok.
      + split; [exact (with_client_ok (with_phase PhDone s) Q C)|]. intros X. destruct X.
        destruct (backlog_up (p_queued s) (with_client true (with_phase PhDone s)) eq_refl (proj1 (proj2 Q)) (fun E => E)) as (_ & (_ & B2 & _) & _). exact B2.
      + split; [exact (refuse_ok (with_phase PhDone s) Q C)|]. intros X. destruct X. destruct (refuse_same (p_queued s) (with_phase PhDone s)) as (_ & A2 & _). exact A2.
    - destruct (p_conn s) as [[]|]; [|auto|auto]. split; [now apply handle_ok|]. destruct (handle_frame msg s (proj1 (proj2 Q))) as (_ & A2 & A3 & _). unfold phase_ok. rewrite A2, A3. exact P.
    - destruct (l_up (p_link s)); [|auto]. destruct (same_response msg s) as (A1 & A2 & A3 & A4 & A5 & A6 & A7 & A8 & A9 & A10). cbn zeta in *. destruct Q as (Q & K & SS). split.
      + split; [rewrite A3, A4; exact Q|]. split; [apply (core_by _ _ K); [|exact A10|exact A6]|injection A10 as C1 C2 C3 C4; rewrite A4, C3, A7; exact SS].
        destruct K as (FR & _). unfold fresh in *. rewrite A5. rewrite Forall_forall in *. intros x X. apply FR, A9, X.
      + unfold phase_ok. rewrite A2, A3. exact P.
    - destruct Q as (Q & (FR & HO) & SS). split; [split; [exact Q|split; [split; [constructor|exact HO]|exact SS]]|exact P].
    - destruct (p_conn s) as [[]|] eqn:CO; [|auto|auto].
      pose proof (lost_frame s) as S1. cbn zeta in S1. set (s1 := if p_client s && l_up (p_link s) then _ else s) in *.
      clearbody s1. destruct S1 as (_ & C1 & C2 & C3 & C4 & C5 & C6 & C7 & C8). destruct Q as (Q & K & SS). split; [|intros _; reflexivity].
      pose proof (same_emit PLost s1 I) as [_ _ _ _ _ _ B7 B8 B9].
      split; [discriminate|]. split.
      + apply (core_by _ _ K); [|etransitivity; [exact B9|exact C8]|etransitivity; [exact B7|exact C6]]. destruct K as (FR & _). unfold fresh in *. cbn [emit with_conn with_client p_link p_next]. rewrite C4. eapply Forall_impl; [|exact FR]. cbn. intros x X. lia.
      + assert (D3 := f_equal (fun h => snd (fst h)) B9). cbn [hist fst snd] in D3. injection C8 as D5 D6 D7 D8. change (subseq (A (emit PLost s1) ++ p_queued s1) (R (emit PLost s1))). rewrite D3, D7, C3, B8, C7. exact SS.
    - destruct Q as (Q & K & SS). destruct (told_later_up n h s K) as (B1 & (_ & E2 & E3 & E4 & _) & B3 & B4 & _). split; [|unfold phase_ok; rewrite E2, E3; exact P].
      split; [rewrite E3, B3; exact Q|]. split; [exact B1|]. rewrite B3, B4, E4. exact SS.
    - pose proof (same_later n r s) as H. split; [eapply same_queue_ok; eauto|]. destruct H as [B1 B2 B3 B4 B5 B6 B7 B8 B9]. unfold phase_ok. rewrite B2, B3. exact P.
    - destruct Q as (Q & K & SS). split; [split; [exact Q|split; [|exact SS]]|exact P]. apply (core_by _ _ K); [|reflexivity|reflexivity]. destruct K as (FR & _). unfold fresh in *. cbn [with_next p_link p_next]. eapply Forall_impl; [|exact FR]. cbn. intros x X. lia.
  Qed.
  Lemma calls_0 : calls_ok 0 [] [] [].
  Proof. split; [reflexivity|]. split; [intros n id h []|]. split; [intros n id []|]. split; [constructor|reflexivity]. Qed.
  Lemma start_ok next : queue_ok (p0 next) /\ phase_ok (p0 next).
  Proof. split; [|intros _; reflexivity]. split; [discriminate|]. split; [split; [constructor|split; [exact calls_0|constructor]]|constructor]. Qed.
  Lemma run_ok next es : queue_ok (run next es) /\ phase_ok (run next es).
  Proof.
    unfold ProxyModel.run. generalize (start_ok next). generalize (p0 next). induction es as [|e es IH]; intros s (Q & P); [auto|]. cbn [fold_left]. apply IH. now apply step_ok.
  Qed.
  Lemma order next es : let s := run next es in subseq (A s ++ p_queued s) (R s) /\ subseq (F s) (wanted (T s)) /\ calls_ok (p_asks s) (p_late s) (A s) (T s).
  Proof. destruct (run_ok next es) as ((_ & (_ & HO & SS) & SA) & _). cbn zeta. auto. Qed.
  Lemma order_prompt next es : prompt before -> subseq (F (run next es) ++ flat_map made (p_queued (run next es))) (flat_map made (R (run next es))).
  Proof.
    intros P. destruct (order next es) as (SA & SF & _ & _ & _ & _ & E). cbn zeta in *. rewrite (E P) in SF. eapply subseq_trans; [apply subseq_app; [exact SF|apply subseq_refl]|]. rewrite <- flat_map_app.
    clear - SA. induction SA as [m|x l m H IH|x l m H IH]; cbn [flat_map]; [constructor|apply subseq_app; [apply subseq_refl|exact IH]|]. apply (subseq_app [] _ _ _ (S_nil _) IH).
  Qed.
  Lemma NoDup_front {X} (l m : list X) : NoDup (l ++ m) -> NoDup l.
  Proof. induction l as [|x l IH]; intros H; [constructor|]. cbn in H. inversion H as [|? ? N D]. subst. constructor; [intros I; apply N, in_or_app; now left|auto]. Qed.
  Lemma calls_told asks late a t : calls_ok asks late a t -> NoDup (map (fun x => fst (fst x)) t) /\
    forall n id op cs, nth_error a n = Some (id, op, cs) -> (exists h, In (n, id, h) t) \/ before op cs = HLater /\ In (n, id) late.
  Proof.
    intros (L & TF & LF & P & _). split; [apply (NoDup_front _ (map fst late)); eapply Permutation_NoDup; [apply Permutation_sym; exact P|apply seq_NoDup]|].
    intros n id op cs E. assert (I : In n (seq 0 asks)) by (apply in_seq; split; [lia|]; rewrite L; apply nth_error_Some; congruence).
    apply (Permutation_in n (Permutation_sym P)) in I. apply in_app_or in I as [I|I]; apply in_map_iff in I as (x & EX & I).
    - destruct x as ((m & id') & h). cbn in EX. subst m. left. exists h. destruct (TF n id' h I) as (_ & op' & cs' & E' & _). rewrite E in E'. injection E' as -> _ _. exact I.
    - destruct x as (m & id'). cbn in EX. subst m. right. destruct (LF n id' I) as (op' & cs' & E' & B). rewrite E in E'. injection E' as -> -> ->. auto.
  Qed.
  Lemma told_late n id h s : core s -> In (n, id) (p_late s) -> h <> HLater -> In (n, id, h) (T (told_later n h s)).
  Proof.
    intros (FR & (_ & _ & LF & _) & _) I NL. assert (E : exists id', find (fun x => Nat.eqb (fst x) n) (p_late s) = Some (n, id')).
    { destruct (find (fun x => Nat.eqb (fst x) n) (p_late s)) as [(m & i)|] eqn:F; [apply find_some in F as (_ & F); apply Nat.eqb_eq in F; cbn in F; subst m; eauto|]. pose proof (find_none _ _ F _ I) as X. cbn in X. rewrite Nat.eqb_refl in X. discriminate. }
    destruct E as (id' & E). assert (id' = id). { apply find_some in E as (E & _). destruct (LF n id I) as (op & cs & X & _). destruct (LF n id' E) as (op' & cs' & Y & _). rewrite X in Y. now injection Y. }
    subst id'. assert (X : told_later n h s = told n id h (with_late (List.filter (fun x => negb (Nat.eqb (fst x) n)) (p_late s)) s)) by (unfold told_later; rewrite E; destruct h; congruence || reflexivity).
    rewrite X. destruct (told_up n id h (with_late (List.filter (fun x => negb (Nat.eqb (fst x) n)) (p_late s)) s) NL FR) as (_ & _ & _ & _ & _ & _ & _ & _ & H & _). injection H as _ _ _ H. rewrite H. apply in_or_app. right. now left.
  Qed.
  (** Where the results come from *)
  Section From.
  Variable L : nat -> hook -> Prop.
  Definition from (s : pst) : Prop := forall n id h, In (n, id, h) (T s) -> (exists op cs, nth_error (A s) n = Some (id, op, cs) /\ before op cs = h) \/ L n h.
  Lemma hist_from s s' : hist s' = hist s -> from s -> from s'.
  Proof. intros H W. assert (C3 := f_equal (fun h => snd (fst h)) H). assert (C4 := f_equal snd H). cbn [hist fst snd] in C3, C4. unfold from. now rewrite C3, C4. Qed.
  Lemma told_from1 n id h s : fresh s -> from s -> (exists op cs, nth_error (A s) n = Some (id, op, cs) /\ before op cs = h) \/ L n h -> from (told n id h s).
  Proof.
    intros FR W N. assert (D : h = HLater \/ h <> HLater) by (destruct h; (now left) || (right; discriminate)). destruct D as [->|NL]; [exact W|].
    destruct (told_up n id h s NL FR) as (_ & _ & _ & _ & _ & _ & _ & _ & H & _). injection H as _ _ H1 H2. intros n' id' h'. rewrite H1, H2. intros I. apply in_app_or in I as [I|[I|[]]]; [exact (W _ _ _ I)|]. injection I as <- <- <-. exact N.
  Qed.
  Lemma forward_from id op cs s : core s -> from s -> from (forward id op cs s).
  Proof.
    intros (FR & (EL & _) & _) W. unfold ProxyModel.forward. destruct (p_client s); [|exact W]. set (s1 := emit _ _).
    assert (A1 : A s1 = A s ++ [(id, op, cs)]) by (unfold s1; cbn [emit p_trace]; rewrite asked_app; reflexivity).
    assert (T1 : T s1 = T s) by (unfold s1; cbn [emit p_trace]; rewrite tolds_app; apply app_nil_r).
    assert (W1 : from s1) by (intros n i h; rewrite T1, A1; intros I; destruct (W n i h I) as [(op0 & cs0 & X & Y)|X]; [left; exists op0, cs0; split; [now apply nth_more|exact Y]|now right]).
    assert (N1 : nth_error (A s1) (p_asks s) = Some (id, op, cs)) by (rewrite A1, EL, nth_error_app2, Nat.sub_diag by lia; reflexivity).
    destruct (before op cs) as [op' cs'|vs| |] eqn:HB; [| | |exact W1]; (apply told_from1; [exact FR|exact W1|left; exists op, cs; auto]).
  Qed.
  Lemma backlog_from l : forall s, p_client s = true -> core s -> from s -> from (backlog l s).
  Proof.
    induction l as [|((id & op) & cs) l IH]; intros s C K W; cbn [ProxyModel.backlog]; [exact W|].
    destruct (forward_up id op cs (with_queued l s) C K) as (A1 & (_ & _ & E3 & _) & _). apply IH; [rewrite E3; exact C|exact A1|]. now apply forward_from.
  Qed.
  Lemma handle_from msg s : core s -> from s -> from (handle before options msg s).
  Proof.
    intros K W. unfold handle. destruct msg as [| | | | | | | | |tag id op cs| | | | | | | | | | | |]; try (eapply hist_from; [apply same_h, same_emit; exact I|exact W]).
    destruct (kind_of op); [|eapply hist_from; [apply same_h, same_emit; exact I|exact W]].
    pose proof (got_core id op cs s K) as K1. assert (W1 : from (emit (PGot id op cs) s)) by (unfold from; cbn [emit p_trace]; rewrite asked_app, tolds_app, !app_nil_r; exact W).
    pose proof (forward_from id op cs _ K1 W1) as FW.
    set (body := match op with OExtReq _ _ _ => _ | _ => _ end). assert (GO : from body).
    { unfold body. destruct op as [| | |k tg| | | | | | | | | | | | | | | | | |tg nm v]; try exact FW.
      - destruct k; try exact FW. apply (forward_from _ _ _ (with_unbound true _)); assumption.
      - destruct nm as [|z|nm]; try exact FW. destruct (bytes_eqb nm starttls_oid); [|exact FW]. eapply hist_from; [apply same_h, same_start_tls|exact W1]. }
    clearbody body. destruct id as [|z|bs]; try exact GO. destruct z; [exact W|exact GO|exact GO].
  Qed.
  Lemma step_from s e : (forall n h, e = VTold n h -> L n h) -> queue_ok s -> from s -> from (step s e).
  Proof.
    intros LE (_ & K & _) W. destruct e as [| | |ok|msg|msg| | |n h|n r|n]; cbn [ProxyModel.step]; try exact W.
    - destruct (p_phase s); exact W.
    - destruct (p_phase s); try exact W. destruct use_tls; [exact W|]. cbn [with_phase with_link p_conn].
      assert (GONE : from (with_queued [] (emit PCloseServer (with_phase PhDone (with_link (mkLink true []) s))))) by (apply (hist_from (emit PCloseServer s)); [reflexivity|]; eapply hist_from; [apply same_h, same_emit; exact I|exact W]).
      destruct (p_conn s) as [[]|]; [|exact GONE|exact GONE]. apply backlog_from; [reflexivity| |exact W]. destruct K as (_ & K). split; [constructor|exact K].
    - destruct (p_phase s); try exact W. destruct (refuse_same (p_queued s) (with_phase PhDone s)) as (_ & _ & _ & _ & _ & _ & _ & H & _). exact (hist_from _ _ H W).
    - destruct (p_phase s); try exact W. destruct ok; [apply backlog_from; [reflexivity|exact K|exact W]|]. destruct (refuse_same (p_queued s) (with_phase PhDone s)) as (_ & _ & _ & _ & _ & _ & _ & H & _). exact (hist_from _ _ H W).
    - destruct (p_conn s) as [[]|]; try exact W. now apply handle_from.
    - destruct (l_up (p_link s)); [|exact W]. destruct (same_response msg s) as (_ & _ & _ & _ & _ & _ & _ & _ & _ & H). exact (hist_from _ _ H W).
    - destruct (p_conn s) as [[]|]; try exact W. pose proof (lost_frame s) as S1. cbn zeta in S1. set (s1 := if p_client s && l_up (p_link s) then _ else s) in *. clearbody s1. destruct S1 as (_ & _ & _ & _ & _ & _ & _ & _ & H).
      apply (hist_from (emit PLost s1)); [reflexivity|]. eapply hist_from; [apply same_h, same_emit; exact I|]. exact (hist_from _ _ H W).
    - destruct (told_later_cases n h s) as [-> | (id & NL & _ & ->)]; [exact W|]. destruct K as (FR & _). apply told_from1; [exact FR|exact W|right; now apply LE].
    - eapply hist_from; [apply same_h, same_later|exact W].
  Qed.
  End From.
  Lemma told_from next es n id h : In (n, id, h) (T (run next es)) -> exists op cs, nth_error (A (run next es)) n = Some (id, op, cs) /\ (before op cs = h \/ before op cs = HLater /\ In (VTold n h) es).
  Proof.
    intros I. destruct (order next es) as (_ & _ & _ & TF & _). destruct (TF n id h I) as (_ & op & cs & E & B). exists op, cs. split; [exact E|]. destruct B as [B|B]; [now left|].
    assert (W : from (fun n h => In (VTold n h) es) (run next es)).
    { clear. unfold ProxyModel.run. assert (H : forall l s, incl l es -> from (fun n h => In (VTold n h) es) s -> queue_ok s /\ phase_ok s -> from (fun n h => In (VTold n h) es) (fold_left step l s)).
      2: { apply H; [apply incl_refl|intros n id h []|apply start_ok]. }
      induction l as [|e l IH]; intros s IE G (Q & P); [exact G|]. cbn [fold_left]. apply IH; [intros x X; apply IE; now right| |now apply step_ok].
      apply step_from; [|exact Q|exact G]. intros n h ->. apply IE. now left. }
    destruct (W n id h I) as [(op' & cs' & E' & B')|X]; [|auto]. rewrite E in E'. injection E' as <- <-. now left.
  Qed.

  (** *** When nothing fails *)
  Variable N : Z.
  Definition exact_ok (s : pst) : Prop :=
    (p_client s = true -> l_up (p_link s) = true) /\ (p_phase s = PhTls -> l_up (p_link s) = true) /\ (p_phase s <> PhNew -> p_conn s = Some true) /\
    (p_phase s = PhDone -> p_client s = true) /\ (p_late s <> [] -> p_client s = true) /\ A s ++ p_queued s = R s /\ ex N s.
  Lemma same_exact s s' : same s s' -> exact_ok s -> exact_ok s'.
  Proof. intros [B1 B2 B3 B4 B5 B6 B7 B8 B9]. injection B9 as C1 C2 C3 C4. unfold exact_ok, ex. now rewrite B1, B2, B3, B4, B5, B6, B7, B8, C2, C3, C4. Qed.
  Lemma exact_got id op cs s : ex N s -> ex N (emit (PGot id op cs) s).
  Proof. unfold ex. cbn [emit p_trace p_next]. now rewrite forwarded_app, tolds_app, !app_nil_r. Qed.
  Lemma exact_forward id op cs s : queue_ok s -> exact_ok s -> is_starttls op = false -> exact_ok (forward id op cs (emit (PGot id op cs) s)).
  Proof.
    intros (Q & K & SS) (X1 & X2 & X3 & X4 & X5 & X6 & X7) ST. pose proof (got_core id op cs s K) as K1. apply (exact_got id op cs) in X7. set (s1 := emit (PGot id op cs) s) in *.
    assert (R1 : R s1 = R s ++ [(id, op, cs)]) by (unfold s1; cbn [emit p_trace]; rewrite received_app; cbn; rewrite ST; reflexivity).
    assert (A1 : A s1 = A s) by (unfold s1; cbn [emit p_trace]; rewrite asked_app; cbn; apply app_nil_r).
    destruct (p_client s) eqn:C.
    - destruct (forward_up id op cs s1 C K1) as (_ & (E1 & E2 & E3 & E4 & E5 & _) & B3 & B4 & B5). change (p_queued s1) with (p_queued s) in B3. rewrite (Q eq_refl) in *.
      unfold exact_ok. rewrite E1, E2, E3, E4, E5, B3, B4, R1, A1, app_nil_r. rewrite app_nil_r in X6. change (p_client s1) with (p_client s). rewrite C.
      split; [auto|]. split; [auto|]. split; [auto|]. split; [auto|]. split; [auto|]. split; [now rewrite X6|]. apply B5; [exact (X1 eq_refl)|exact X7].
    - assert (E : forward id op cs s1 = with_queued (p_queued s1 ++ [(id, op, cs)]) s1) by (unfold ProxyModel.forward; change (p_client s1) with (p_client s); now rewrite C). rewrite E. unfold exact_ok.
      cbn [with_queued p_client p_link p_phase p_conn p_queued p_trace p_late]. rewrite R1, A1. change (p_queued s1) with (p_queued s). change (p_client s1) with (p_client s). rewrite C.
      split; [discriminate|]. split; [exact X2|]. split; [exact X3|]. split; [exact X4|]. split; [exact X5|]. split; [rewrite app_assoc, X6; reflexivity|exact X7].
  Qed.
  Lemma exact_starttls id op cs s : exact_ok s -> is_starttls op = true -> exact_ok (emit (PGot id op cs) s).
  Proof.
    intros (X1 & X2 & X3 & X4 & X5 & X6 & X7) ST. apply (exact_got id op cs) in X7. unfold exact_ok in *. cbn [emit p_trace p_queued p_client p_link p_phase p_conn p_late]. rewrite asked_app, received_app. cbn [asked received flat_map]. rewrite ST, !app_nil_r. auto 8.
  Qed.
  Lemma exact_handle msg s : queue_ok s -> exact_ok s -> exact_ok (handle before options msg s).
  Proof.
    intros Q X. unfold handle. destruct msg as [| | | | | | | | |tag id op cs| | | | | | | | | | | |]; try (eapply same_exact; [apply same_emit; exact I|exact X]).
    destruct (kind_of op); [|eapply same_exact; [apply same_emit; exact I|exact X]].
    set (body := match op with OExtReq _ _ _ => _ | _ => _ end).
    assert (GO : exact_ok body).
    { unfold body. destruct op as [| | |k tg| | | | | | | | | | | | | | | | | |tg nm v]; try (apply exact_forward; [exact Q|exact X|reflexivity]).
      - destruct k; try (apply exact_forward; [exact Q|exact X|reflexivity]).
        exact (exact_forward id (ONull KUnbind tg) cs (with_unbound true s) (same_queue_ok _ _ (same_unbound true s) Q) (same_exact _ _ (same_unbound true s) X) eq_refl).
      - destruct nm as [|z|nm]; try (apply exact_forward; [exact Q|exact X|reflexivity]).
        destruct (bytes_eqb nm starttls_oid) eqn:E; [eapply same_exact; [apply same_start_tls|]; apply exact_starttls; [exact X|exact E]|apply exact_forward; [exact Q|exact X|exact E]]. }
    clearbody body. destruct id as [|z|bs]; try exact GO. destruct z; [exact X|exact GO|exact GO].
  Qed.
  Lemma exact_backlog s : queue_ok s -> l_up (p_link s) = true -> p_conn s = Some true -> p_phase s = PhDone -> A s ++ p_queued s = R s -> ex N s -> exact_ok (backlog (p_queued s) (with_client true s)).
  Proof.
    intros (Q & K & SS) U CO PH X6 X7. destruct (backlog_up (p_queued s) (with_client true s) eq_refl K (fun E => E)) as (B1 & (E1 & E2 & E3 & E4 & E5 & _) & B3 & B4 & B5).
    unfold exact_ok. rewrite E1, E2, E3, E4, E5, B3, B4, app_nil_r. cbn [with_client p_conn p_phase p_link p_client].
    split; [auto|]. split; [auto|]. split; [auto|]. split; [auto|]. split; [auto|]. split; [exact X6|]. apply B5; [exact U|exact X7].
  Qed.
  Lemma step_exact s e : calm e -> queue_ok s -> phase_ok s -> exact_ok s -> exact_ok (step s e).
  Proof.
    intros CA Q P X. pose proof X as (X1 & X2 & X3 & X4 & X5 & X6 & X7). destruct e as [| | |ok|msg|msg| | |n h|n r|n]; cbn [ProxyModel.step calm] in *; try contradiction.
    - destruct (p_phase s) eqn:PH; try exact X. unfold exact_ok. cbn [with_phase with_conn p_client p_link p_phase p_conn p_queued p_trace]. split; [exact X1|]. split; [discriminate|]. split; [reflexivity|]. split; [discriminate|]. auto.
    - destruct (p_phase s) eqn:PH; try exact X. assert (C : p_client s = false) by (apply P; congruence). destruct use_tls.
      + unfold exact_ok. cbn [with_phase with_link p_client p_link p_phase p_conn p_queued p_trace l_up]. split; [reflexivity|]. split; [reflexivity|]. split; [intros _; apply X3; discriminate|]. split; [discriminate|]. auto.
      + cbn [with_phase with_link p_conn]. assert (CO : p_conn s = Some true) by (apply X3; discriminate). rewrite CO. apply exact_backlog; cbn [with_phase with_link p_conn p_phase p_link p_queued p_trace l_up]; auto.
        destruct Q as (Q & (FR & HO) & SS). split; [exact Q|]. split; [split; [constructor|exact HO]|exact SS].
    - destruct (p_phase s) eqn:PH; try exact X. destruct ok; [|contradiction]. apply exact_backlog; cbn [with_phase p_conn p_phase p_link p_queued p_trace]; auto. apply X3. discriminate.
    - destruct (p_conn s) as [[]|]; [|exact X|exact X]. now apply exact_handle.
    - destruct (l_up (p_link s)); [|exact X]. destruct (same_response msg s) as (A1 & A2 & A3 & A4 & A5 & A6 & A7 & A8 & A9 & A10). cbn zeta in *. injection A10 as C1 C2 C3 C4. unfold exact_ok, ex. rewrite A1, A2, A3, A4, A5, A6, A7, A8, C2, C3, C4. exact X.
    - destruct Q as (Q & K & SS). destruct (told_later_up n h s K) as (B1 & (E1 & E2 & E3 & E4 & E5 & _) & B3 & B4 & B5 & B6). unfold exact_ok. rewrite E1, E2, E3, E4, E5, B3, B4.
      split; [exact X1|]. split; [exact X2|]. split; [exact X3|]. split; [exact X4|]. split; [|split; [exact X6|now apply B6]]. intros NE. apply X5. intros E. rewrite E in B5. apply NE. destruct (p_late (told_later n h s)) as [|x l]; [reflexivity|]. destruct (B5 x). now left.
    - eapply same_exact; [apply same_later|exact X].
    - unfold exact_ok, ex in *. cbn [with_next p_next p_client p_link p_phase p_conn p_queued p_trace p_late]. repeat (split; [assumption|]). split; [lia|]. intros L. apply X7. lia.
  Qed.
  Lemma run_exact next es : 0 <= next -> Forall calm es -> let s := run next es in
    A s ++ p_queued s = R s /\ (p_next s <= N -> Forall (fine N) (T s) -> F s = wanted (T s)) /\ (p_phase s = PhDone -> p_queued s = []).
  Proof.
    intros NX CA. assert (G : queue_ok (p0 next) /\ phase_ok (p0 next) /\ exact_ok (p0 next)).
    { destruct (start_ok next) as (Q & P). split; [exact Q|]. split; [exact P|].
      unfold exact_ok, ex. cbn. split; [discriminate|]. split; [discriminate|]. split; [congruence|]. split; [discriminate|]. split; [congruence|]. split; [reflexivity|]. split; [exact NX|reflexivity]. }
    unfold ProxyModel.run. revert G. generalize (p0 next). induction es as [|e es IH]; intros s (Q & P & X).
    - cbn [fold_left]. cbn zeta. destruct X as (X1 & X2 & X3 & X4 & X5 & X6 & X7 & X8). split; [exact X6|]. split; [exact X8|]. intros PH. apply (proj1 Q). now apply X4.
    - cbn [fold_left]. pose proof (step_ok s e Q P) as (Q' & P'). apply IH; [exact (Forall_inv_tail CA)|]. split; [exact Q'|]. split; [exact P'|]. apply step_exact; auto. exact (Forall_inv CA).
  Qed.
End Proofs.
