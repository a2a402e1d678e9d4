(** Proofs about ProxyBase: responses. *)
From Verif Require Import Base BaseFacts BerModel LdapModel ServerModel ClientModel ProxyModel ProxySpec ProxyProofs.

(** Arrivals and results, from the trace *)
Definition arr (t : list pev) : list (Z * nat) := flat_map (fun e => match e with PArrived b n _ => [(b, n)] | _ => [] end) t.
Definition hooks (t : list pev) : list (nat * option (option obj)) := flat_map (fun e => match e with PHook n r => [(n, r)] | _ => [] end) t.
Lemma arr_app t u : arr (t ++ u) = arr t ++ arr u. Proof. apply flat_map_app. Qed.
Lemma hooks_app t u : hooks (t ++ u) = hooks t ++ hooks u. Proof. apply flat_map_app. Qed.
Lemma replies_app b t u : replies b (t ++ u) = replies b t ++ replies b u. Proof. apply flat_map_app. Qed.
Lemma arrivals_app b t u : arrivals b (t ++ u) = arrivals b t ++ arrivals b u. Proof. apply flat_map_app. Qed.
Lemma arrivals_arr b t n : In n (arrivals b t) <-> In (b, n) (arr t).
Proof.
  unfold arrivals, arr. rewrite !in_flat_map. split; intros (e & I & H); exists e; (split; [exact I|]); destruct e as [| | | | |b' n' v| | | | | | |]; try contradiction.
  - destruct (b' =? b) eqn:E; [|contradiction]. apply Z.eqb_eq in E as ->. destruct H as [->|[]]. now left.
  - destruct H as [H|[]]. inversion H. subst. rewrite Z.eqb_refl. now left.
Qed.
Lemma gave_hooks n r t : gave n r t <-> In (n, r) (hooks t).
Proof.
  unfold gave, hooks. rewrite in_flat_map. split.
  - intros I. exists (PHook n r). split; [exact I|now left].
  - intros (e & I & H). destruct e; try contradiction. destruct H as [H|[]]. inversion H. now subst.
Qed.
Lemma NoDup_fst_inj {A C} (l : list (A * C)) a c c' : NoDup (map fst l) -> In (a, c) l -> In (a, c') l -> c = c'.
Proof.
  induction l as [|(x & y) l IH]; cbn [map fst]; intros N I I'; [contradiction|]. inversion N as [|? ? NI N']. subst.
  destruct I as [I|I], I' as [I'|I'].
  - congruence.
  - inversion I. subst. destruct NI. apply in_map_iff. exists (a, c'). auto.
  - inversion I'. subst. destruct NI. apply in_map_iff. exists (a, c). auto.
  - auto.
Qed.
Lemma NoDup_snd_inj {A C} (l : list (A * C)) a a' c : NoDup (map snd l) -> In (a, c) l -> In (a', c) l -> a = a'.
Proof.
  intros N I I'. apply (NoDup_fst_inj (map (fun x => (snd x, fst x)) l) c).
  - rewrite map_map. exact N.
  - apply in_map_iff. exists (a, c). auto.
  - apply in_map_iff. exists (a', c). auto.
Qed.
Lemma NoDup_arrivals b t : NoDup (map snd (arr t)) -> NoDup (arrivals b t).
Proof.
  induction t as [|e t IH]; [constructor|]. intros N. cbn [arr arrivals flat_map] in *. fold (arr t) in N. fold (arrivals b t).
  destruct e as [| | | | |b' n v| | | | | | |]; try exact (IH N). cbn [app map snd] in N. inversion N as [|? ? NI N']. subst. destruct (b' =? b); [|exact (IH N')].
  cbn [app]. constructor; [|exact (IH N')]. intros I. apply NI. apply in_map_iff. exists (b, n). split; [reflexivity|]. now apply arrivals_arr.
Qed.

Lemma NoDup_snoc {A} (l : list A) x : NoDup l -> ~ In x l -> NoDup (l ++ [x]).
Proof.
  intros N I. induction l as [|y l IH]; [constructor; [easy|constructor]|]. inversion N. subst. cbn [app]. constructor.
  - intros X. apply in_app_or in X as [X|[X|[]]]; [contradiction|]. subst. apply I. now left.
  - apply IH; [assumption|]. intros X. apply I. now right.
Qed.

Lemma vals_app D D' : vals (D ++ D') = vals D ++ vals D'. Proof. apply flat_map_app. Qed.

Definition goods (D : list (nat * option obj)) : list (nat * dstate) := map (fun x => (fst x, DGood (snd x))) D.
Definition first_open (l : list (nat * dstate)) : Prop := match l with (_, DGood _) :: _ => False | _ => True end.
(** Events written while responses are passed on *)
Definition talk (b : Z) (e : pev) : Prop := match e with PReply _ _ (Some b') => b' = b | PRaised _ => True | _ => False end.
Lemma talk_nothing b o : Forall (talk b) o -> arr o = [] /\ hooks o = [] /\ (forall b', b' <> b -> replies b' o = []) /\ (forall b' op cs id, ~ In (PForward b' op cs id) o).
Proof.
  induction 1 as [|e o H _ (I1 & I2 & I3 & I4)]; [repeat split; auto|]. cbn [arr hooks flat_map]. fold (arr o). fold (hooks o). rewrite I1, I2.
  destruct e as [| | | |id v [b'|]| | | | | | | |e]; try contradiction; cbn in H; cbn [app].
  - subst b'. repeat split; auto; [|intros b' op cs id' [X|X]; [discriminate|exact (I4 _ _ _ _ X)]]. intros b' NE. cbn [replies flat_map]. fold (replies b' o). rewrite (I3 _ NE). destruct (b =? b') eqn:E; [lia|reflexivity].
  - repeat split; auto. intros b' op cs id' [X|X]; [discriminate|exact (I4 _ _ _ _ X)].
Qed.

Lemma reply_ext id b v s : exists o, fst (reply id (Some b) v s) = mkP (p_conn s) (p_phase s) (p_client s) (p_link s) (p_queued s) (p_unbound s) (p_tls s) (p_next s) (p_seqs s) (p_calls s) (p_asks s) (p_late s) (p_trace s ++ o)
  /\ Forall (talk b) o /\ subseq (replies b o) (match v with Some w => [(id, w)] | None => [] end)
  /\ (p_conn s = Some true -> (forall w, v = Some w -> writable id w) -> snd (reply id (Some b) v s) = Ok tt /\ replies b o = match v with Some w => [(id, w)] | None => [] end).
Proof.
  assert (E : s = mkP (p_conn s) (p_phase s) (p_client s) (p_link s) (p_queued s) (p_unbound s) (p_tls s) (p_next s) (p_seqs s) (p_calls s) (p_asks s) (p_late s) (p_trace s ++ [])) by (rewrite app_nil_r; now destruct s).
  unfold reply. destruct v as [w|]; [|exists []; split; [exact E|]; split; [constructor|]; split; [constructor|auto]].
  destruct (p_conn s) as [[]|] eqn:C; [|exists []; split; [exact E|]; split; [constructor|]; split; [constructor|discriminate]|exists []; split; [exact E|]; split; [constructor|]; split; [constructor|discriminate]].
  destruct (toWire _) as [x|e] eqn:T.
  - exists [PReply id w (Some b)]. split; [cbn [fst]; unfold emit; now rewrite C|]. split; [constructor; [reflexivity|constructor]|]. cbn. rewrite Z.eqb_refl. split; [apply subseq_refl|auto].
  - exists []. split; [exact E|]. split; [constructor|]. split; [constructor|]. intros _ W. destruct (W w eq_refl) as (x & X). change (class_tag KMessage) with 0x10 in T. congruence.
Qed.
Lemma drain_ok id b : forall items s, exists D items' linked o,
  drain id b items s = (items', linked, mkP (p_conn s) (p_phase s) (p_client s) (p_link s) (p_queued s) (p_unbound s) (p_tls s) (p_next s) (p_seqs s) (p_calls s) (p_asks s) (p_late s) (p_trace s ++ o)) /\
  items = goods D ++ items' /\ Forall (talk b) o /\ subseq (replies b o) (map (pair id) (vals D)) /\
  (p_conn s = Some true -> (forall n v, In (n, DGood (Some v)) items -> writable id v) -> linked = true /\ first_open items' /\ replies b o = map (pair id) (vals D)).
Proof.
  induction items as [|(n & d) items IH]; intros s.
  - exists [], [], true, []. split; [cbn [drain]; rewrite app_nil_r; now destruct s|]. split; [reflexivity|]. split; [constructor|]. split; [constructor|]. intros _ _. split; [reflexivity|split; [exact I|reflexivity]].
  - assert (N : forall d', first_open [(n, d')] -> drain id b ((n, d') :: items) s = ((n, d') :: items, true, s) -> exists D items' linked o,
      drain id b ((n, d') :: items) s = (items', linked, mkP (p_conn s) (p_phase s) (p_client s) (p_link s) (p_queued s) (p_unbound s) (p_tls s) (p_next s) (p_seqs s) (p_calls s) (p_asks s) (p_late s) (p_trace s ++ o)) /\
      (n, d') :: items = goods D ++ items' /\ Forall (talk b) o /\ subseq (replies b o) (map (pair id) (vals D)) /\
      (p_conn s = Some true -> (forall m v, In (m, DGood (Some v)) ((n, d') :: items) -> writable id v) -> linked = true /\ first_open items' /\ replies b o = map (pair id) (vals D))).
    { intros d' O ->. exists [], ((n, d') :: items), true, []. split; [rewrite app_nil_r; now destruct s|]. split; [reflexivity|]. split; [constructor|]. split; [constructor|]. intros _ _. split; [reflexivity|split; [exact O|reflexivity]]. }
    destruct d as [|v|]; try (apply N; [exact I|reflexivity]). clear N. cbn [drain].
    destruct (reply_ext id b v s) as (o & E & TK & SB & EX). destruct (reply id (Some b) v s) as (s' & [u|e]); cbn [fst snd] in *; subst s'.
    + destruct (IH (mkP (p_conn s) (p_phase s) (p_client s) (p_link s) (p_queued s) (p_unbound s) (p_tls s) (p_next s) (p_seqs s) (p_calls s) (p_asks s) (p_late s) (p_trace s ++ o))) as (D & items' & linked & o' & E & EI & TK' & SB' & EX').
      cbn [p_conn p_phase p_client p_link p_queued p_unbound p_tls p_next p_seqs p_calls p_trace] in *. rewrite E. exists ((n, v) :: D), items', linked, (o ++ o'). rewrite app_assoc. split; [reflexivity|].
      split; [cbn [goods map fst snd app]; rewrite EI; reflexivity|]. split; [apply Forall_app; auto|].
      assert (V : map (pair id) (vals ((n, v) :: D)) = match v with Some w => [(id, w)] | None => [] end ++ map (pair id) (vals D)) by (destruct v; reflexivity).
      rewrite V, replies_app. split; [now apply subseq_app|]. intros C W. destruct (EX C) as (_ & ->). { intros w ->. apply (W n). now left. }
      destruct (EX' C) as (L & FO & ->); [|auto]. intros m w I. apply (W m). now right.
    + cbn [emit p_trace p_conn p_phase p_client p_link p_queued p_unbound p_tls p_next p_seqs p_calls]. exists [(n, v)], items, false, (o ++ [PRaised e]). unfold emit. cbn [p_trace p_conn p_phase p_client p_link p_queued p_unbound p_tls p_next p_seqs p_calls]. rewrite app_assoc. split; [reflexivity|].
      split; [reflexivity|]. split; [apply Forall_app; split; [exact TK|constructor; [exact I|constructor]]|]. rewrite replies_app. cbn [replies flat_map]. rewrite app_nil_r.
      split; [destruct v; exact SB|]. intros C W. destruct (EX C) as (X & _); [|discriminate]. intros w ->. apply (W n). now left.
Qed.

(** *** The invariant *)
Definition item_ok (t : list pev) (x : nat * dstate) : Prop :=
  match snd x with
  | DWait => ~ In (fst x) (map fst (hooks t))
  | DGood v => In (fst x, Some v) (hooks t)
  | DBad => In (fst x, None) (hooks t)
  end.
Definition all_writable (b : Z) (id : pv) (t : list pev) : Prop := forall n v, In n (arrivals b t) -> In (n, Some (Some v)) (hooks t) -> writable id v.
Definition seq_ok (conn : option bool) (t : list pev) (b : Z) (q : dseq) : Prop := exists D,
  arrivals b t = map fst D ++ map fst (q_items q) /\ Forall (fun x => In (fst x, Some (snd x)) (hooks t)) D /\ Forall (item_ok t) (q_items q) /\
  subseq (replies b t) (map (pair (q_id q)) (vals D)) /\
  (conn <> Some false -> all_writable b (q_id q) t -> replies b t = map (pair (q_id q)) (vals D) /\ (q_items q = [] \/ q_linked q = true /\ first_open (q_items q))).
Record resp_ok (s : pst) : Prop := mkResp {
  r_nodup : NoDup (map fst (p_seqs s));
  r_next : Forall (fun x => fst x < p_next s) (p_seqs s);
  r_wire : incl (map fst (l_wire (p_link s))) (map fst (p_seqs s));
  r_seq : forall b q, In (b, q) (p_seqs s) -> seq_ok (p_conn s) (p_trace s) b q;
  r_none : forall b, ~ In b (map fst (p_seqs s)) -> arrivals b (p_trace s) = [] /\ replies b (p_trace s) = [];
  r_arr : Forall (fun n => n < p_calls s)%nat (map snd (arr (p_trace s)));
  r_arrs : NoDup (map snd (arr (p_trace s)));
  r_hook : Forall (fun n => n < p_calls s)%nat (map fst (hooks (p_trace s)));
  r_hooks : NoDup (map fst (hooks (p_trace s)));
  r_fwd : forall b op cs id, In (PForward b op cs id) (p_trace s) -> b < p_next s /\ forall q, In (b, q) (p_seqs s) -> q_id q = id;
  r_conn : p_conn s = None -> p_seqs s = [] /\ p_phase s = PhNew;
  r_new : p_phase s = PhNew -> p_conn s = None }.

(** Steps that do not concern responses *)
Definition aside (e : pev) : Prop := match e with PForward _ _ _ _ | PReply _ _ (Some _) | PArrived _ _ _ | PHook _ _ => False | _ => True end.
Lemma aside_nothing o : Forall aside o -> arr o = [] /\ hooks o = [] /\ (forall b, arrivals b o = []) /\ (forall b, replies b o = []) /\ (forall b op cs id, ~ In (PForward b op cs id) o).
Proof.
  induction 1 as [|e o H _ (I1 & I2 & I3 & I4 & I5)]; [repeat split; auto|]. cbn [arr hooks flat_map]. fold (arr o). fold (hooks o). rewrite I1, I2.
  destruct e as [| | | |id v [b'|]| | | | | | | |e]; try contradiction; cbn [app]; (split; [reflexivity|]; split; [reflexivity|]; split; [exact I3|]; split; [exact I4|]; intros b op' cs' id' [X|X]; [discriminate|exact (I5 _ _ _ _ X)]).
Qed.
Record frame (s s' : pst) : Prop := mkFrame {
  f_seqs : p_seqs s' = p_seqs s; f_calls : p_calls s' = p_calls s; f_next : p_next s <= p_next s';
  f_wire : incl (map fst (l_wire (p_link s'))) (map fst (l_wire (p_link s)));
  f_trace : exists o, p_trace s' = p_trace s ++ o /\ Forall aside o;
  f_lost : p_conn s = Some false -> p_conn s' = Some false;
  f_conn : p_conn s' = None -> p_conn s = None /\ p_phase s' = p_phase s;
  f_new : (p_phase s = PhNew -> p_conn s = None) -> p_phase s' = PhNew -> p_conn s' = None }.
Lemma frame_refl s : frame s s.
Proof. constructor; auto; try lia; [apply incl_refl|]. exists []. split; [now rewrite app_nil_r|constructor]. Qed.
Lemma frame_trans s t u : frame s t -> frame t u -> frame s u.
Proof.
  intros [A1 A2 A3 A4 (o & A5 & A6) A7 A8 A9] [B1 B2 B3 B4 (o' & B5 & B6) B7 B8 B9]. constructor; try congruence; try lia.
  - eapply incl_tran; eauto.
  - exists (o ++ o'). split; [rewrite B5, A5; symmetry; apply app_assoc|apply Forall_app; auto].
  - auto.
  - intros H. destruct (B8 H) as (H' & E). destruct (A8 H') as (H'' & E'). split; congruence.
  - auto.
Qed.
Lemma frame_ok s s' : frame s s' -> resp_ok s -> resp_ok s'.
Proof.
  intros [A1 A2 A3 A4 (o & A5 & A6) A7 A8 A9] [R1 R2 R3 R4 R5 R6 R7 R8 R9 R10 R11 R12]. destruct (aside_nothing o A6) as (O1 & O2 & O3 & O4 & O5).
  assert (EA : arr (p_trace s') = arr (p_trace s)) by (rewrite A5, arr_app, O1; apply app_nil_r).
  assert (EH : hooks (p_trace s') = hooks (p_trace s)) by (rewrite A5, hooks_app, O2; apply app_nil_r).
  assert (EV : forall b, arrivals b (p_trace s') = arrivals b (p_trace s)) by (intros b; rewrite A5, arrivals_app, O3; apply app_nil_r).
  assert (ER : forall b, replies b (p_trace s') = replies b (p_trace s)) by (intros b; rewrite A5, replies_app, O4; apply app_nil_r).
  constructor; rewrite ?A1, ?A2, ?EA, ?EH; auto.
  - eapply Forall_impl; [|exact R2]. cbn. intros x H. lia.
  - eapply incl_tran; eauto.
  - intros b q I. destruct (R4 b q I) as (D & D1 & D2 & D3 & D4 & D5). exists D. unfold all_writable, item_ok in *. rewrite EV, ER, EH. split; [exact D1|]. split; [exact D2|]. split; [exact D3|]. split; [exact D4|].
    intros C. apply D5. intros X. apply C. auto.
  - intros b I. rewrite EV, ER. auto.
  - intros b op cs id I. rewrite A5 in I. apply in_app_or in I as [I|I]; [|now apply O5 in I]. destruct (R10 _ _ _ _ I) as (X & Y). split; [lia|exact Y].
  - intros H. destruct (A8 H) as (H' & E). destruct (R11 H'). split; [assumption|congruence].
Qed.
Lemma frame_emit e s : aside e -> frame s (emit e s).
Proof. intros A. constructor; try reflexivity; auto; [apply incl_refl|]. exists [e]. split; [reflexivity|constructor; [exact A|constructor]]. Qed.
Ltac frame_solve := constructor; try reflexivity; auto; try (apply incl_refl); try (exists []; split; [symmetry; apply app_nil_r|constructor]); try contradiction; try (cbn; lia).
Lemma frame_queued x s : frame s (with_queued x s). Proof. frame_solve. Qed.
Lemma frame_unbound x s : frame s (with_unbound x s). Proof. frame_solve. Qed.
Lemma frame_tls x s : frame s (with_tls x s). Proof. frame_solve. Qed.
Lemma frame_asks x s : frame s (with_asks x s). Proof. frame_solve. Qed.
Lemma frame_late x s : frame s (with_late x s). Proof. frame_solve. Qed.
Lemma frame_client x s : frame s (with_client x s). Proof. frame_solve. Qed.
Lemma frame_next x s : p_next s <= x -> frame s (with_next x s).
Proof. intros L. frame_solve. Qed.
Lemma frame_link x s : incl (map fst (l_wire x)) (map fst (l_wire (p_link s))) -> frame s (with_link x s).
Proof. intros L. frame_solve. Qed.
Lemma frame_phase x s : x <> PhNew -> p_conn s <> None -> frame s (with_phase x s).
Proof. intros X N. frame_solve. Qed.
Lemma frame_reply id v s : frame s (fst (reply id None v s)).
Proof. destruct (reply_cases id None v s) as [-> | (w & _ & _ & ->)]; [apply frame_refl|apply frame_emit; exact I]. Qed.
Lemma frame_reply_log id v s : frame s (reply_log id v s).
Proof.
  unfold reply_log. pose proof (frame_reply id (Some v) s) as H. destruct (reply id None (Some v) s) as (s' & [u|e]); cbn [fst] in H; [exact H|].
  eapply frame_trans; [exact H|apply frame_emit; exact I].
Qed.
Lemma frame_bypass id vs : forall s, frame s (bypass id vs s).
Proof.
  induction vs as [|v vs IH]; intros s; [apply frame_refl|]. cbn [bypass]. pose proof (frame_reply id v s) as H. destruct (reply id None v s) as (s' & [u|e]); cbn [fst] in H.
  - eapply frame_trans; [exact H|apply IH].
  - eapply frame_trans; [exact H|apply frame_emit; exact I].
Qed.
Lemma frame_start_tls opt id s : frame s (start_tls opt id s).
Proof.
  unfold start_tls. destruct opt; [|apply frame_reply_log]. destruct (p_tls s); [apply frame_reply_log|].
  pose proof (frame_reply id (Some (ext_obj 0 (VBytes []) VNone)) s) as H. destruct (reply _ _ _ s) as (s' & [u|e]); cbn [fst] in H; (eapply frame_trans; [exact H|]).
  - eapply frame_trans; [apply (frame_emit PTls); exact I|apply frame_tls].
  - apply frame_emit; exact I.
Qed.
Lemma frame_refuse l : forall s, frame s (refuse l s).
Proof.
  induction l as [|((id & op) & cs) l IH]; intros s; cbn [refuse]; [apply frame_emit; exact I|]. eapply frame_trans; [apply (frame_queued l)|].
  destruct op; try apply IH. set (v := res_obj _ _ _ _). pose proof (frame_reply id (Some v) (with_queued l s)) as H. destruct (reply id None (Some v) (with_queued l s)) as (s2 & [u|e]); cbn [fst] in H.
  - eapply frame_trans; [exact H|apply IH].
  - eapply frame_trans; [exact H|apply frame_emit; exact I].
Qed.

Section Order.
  Variable before : obj -> ctrls -> hook.
  Variable after : obj -> obj -> ctrls -> ahook.
  Variable use_tls options : bool.
  Notation step := (step before after use_tls options).
  Notation run := (run before after use_tls options).
  Notation forward := (forward before).
  Notation backlog := (backlog before).

  (** A new message with its own dseq *)
  Lemma new_seq s id w o : resp_ok s -> p_conn s <> None -> (forall e, In e o -> aside e \/ exists op, e = PForward (p_next s) op None id) ->
    resp_ok (mkP (p_conn s) (p_phase s) (p_client s) (mkLink true (l_wire (p_link s) ++ [(p_next s, w)])) (p_queued s) (p_unbound s) (p_tls s) (p_next s + 1) (p_seqs s ++ [(p_next s, mkSeq [] false id)]) (p_calls s) (p_asks s) (p_late s) (p_trace s ++ o)).
  Proof.
    intros [R1 R2 R3 R4 R5 R6 R7 R8 R9 R10 R11 R12] C O.
    assert (OO : arr o = [] /\ hooks o = [] /\ (forall b, arrivals b o = []) /\ (forall b, replies b o = [])).
    { clear - O. induction o as [|e o IH]; [repeat split; auto|]. destruct IH as (I1 & I2 & I3 & I4). { intros x X. apply O. now right. }
      cbn [arr hooks flat_map]. fold (arr o). fold (hooks o). rewrite I1, I2. destruct (O e (or_introl eq_refl)) as [A|(op & ->)]; [|repeat split; auto].
      destruct e as [| | | |i v [b'|]| | | | | | | |e]; try contradiction; repeat split; auto. }
    destruct OO as (O1 & O2 & O3 & O4).
    assert (NI : ~ In (p_next s) (map fst (p_seqs s))). { intros I. apply in_map_iff in I as (x & E & I). rewrite Forall_forall in R2. specialize (R2 x I). lia. }
    constructor; cbn [p_conn p_phase p_link p_next p_seqs p_calls p_trace l_wire]; rewrite ?arr_app, ?hooks_app, ?O1, ?O2, ?app_nil_r; auto.
    - rewrite map_app. apply NoDup_snoc; auto.
    - apply Forall_app. split; [eapply Forall_impl; [|exact R2]; cbn; intros x H; lia|constructor; [cbn; lia|constructor]].
    - rewrite !map_app. apply incl_app; [apply incl_appl; exact R3|apply incl_appr, incl_refl].
    - intros b q I. apply in_app_or in I as [I|[I|[]]].
      + destruct (R4 b q I) as (D & D1 & D2 & D3 & D4 & D5). exists D. unfold all_writable, item_ok in *. rewrite ?hooks_app, arrivals_app, replies_app, O2, O3, O4, !app_nil_r. auto 10.
      + inversion I. subst b q. destruct (R5 _ NI) as (E1 & E2). exists []. rewrite arrivals_app, replies_app, O3, O4, E1, E2. cbn. split; [reflexivity|]. split; [constructor|]. split; [constructor|]. split; [constructor|]. auto.
    - intros b I. rewrite arrivals_app, replies_app, O3, O4, !app_nil_r. apply R5. intros X. apply I. rewrite map_app. apply in_or_app. auto.
    - intros b op cs i I. apply in_app_or in I as [I|I].
      + destruct (R10 _ _ _ _ I) as (X & Y). split; [lia|]. intros q Q. apply in_app_or in Q as [Q|[Q|[]]]; [auto|]. inversion Q. lia.
      + destruct (O _ I) as [A|(op' & E)]; [contradiction|]. inversion E. subst. split; [lia|]. intros q Q. apply in_app_or in Q as [Q|[Q|[]]]; [|inversion Q; reflexivity].
        exfalso. apply NI. apply in_map_iff. exists (p_next s, q). auto.
    - contradiction.
  Qed.

  Lemma told_resp n id h s : resp_ok s -> (p_client s = true -> p_conn s <> None) -> resp_ok (told n id h s) /\ p_conn (told n id h s) = p_conn s.
  Proof.
    intros RO0 C0. destruct h as [op' cs'|vs| |]; [| | |auto];
    match goal with |- context [told n id ?h s] => pose proof (frame_ok _ _ (frame_emit (PTold n id h) s I) RO0) as RO; unfold told; set (s1 := emit (PTold n id h) s) in * end;
    change (p_conn s) with (p_conn s1) in *; change (p_client s) with (p_client s1) in C0; clearbody s1; clear RO0 s; rename s1 into s.
    all: assert (FR : forall s', frame s s' -> p_conn s' = p_conn s -> resp_ok s' /\ p_conn s' = p_conn s) by (intros s' H E; split; [now apply (frame_ok s s')|exact E]).
    - destruct (p_client s) eqn:PC; [|apply FR; [apply frame_emit; exact I|reflexivity]]. pose proof (C0 eq_refl) as C. destruct (needs_answer op') eqn:NA.
      + unfold send_multi. rewrite NA. cbn [negb]. destruct (l_up (p_link s)) eqn:U.
        * destruct (wire_has (p_next s) (l_wire (p_link s))).
          { apply FR; [|reflexivity]. eapply frame_trans; [apply frame_next; apply (Z.le_succ_diag_r (p_next s))|]. eapply frame_trans; [apply (frame_link (p_link s)); apply incl_refl|]. apply frame_emit. exact I. }
          destruct (toWire _) as [w|e]; (split; [|reflexivity]).
          -- apply (new_seq s id (mkPSlot id op' cs') [PForward (p_next s) op' None id] RO C). intros e [<-|[]]. right. eauto.
          -- apply (new_seq s id (mkPSlot id op' cs') [PRaised e] RO C). intros x [<-|[]]. left. exact I.
        * apply FR; [|reflexivity]. eapply frame_trans; [apply (frame_next (p_next s)); lia|]. eapply frame_trans; [apply (frame_link (p_link s)); apply incl_refl|]. apply frame_emit. exact I.
      + assert (PF : forall w : list byte, resp_ok (emit (PForward (p_next s) op' None id) (with_next (p_next s + 1) s))).
        { intros _. pose proof (frame_ok _ _ (frame_next (p_next s + 1) s ltac:(lia)) RO) as [R1 R2 R3 R4 R5 R6 R7 R8 R9 R10 R11 R12].
          assert (A : forall t, arr (t ++ [PForward (p_next s) op' None id]) = arr t) by (intros t; rewrite arr_app; apply app_nil_r).
          assert (H : forall t, hooks (t ++ [PForward (p_next s) op' None id]) = hooks t) by (intros t; rewrite hooks_app; apply app_nil_r).
          assert (V : forall b t, arrivals b (t ++ [PForward (p_next s) op' None id]) = arrivals b t) by (intros b t; rewrite arrivals_app; apply app_nil_r).
          assert (P : forall b t, replies b (t ++ [PForward (p_next s) op' None id]) = replies b t) by (intros b t; rewrite replies_app; apply app_nil_r).
          constructor; cbn [emit with_next p_conn p_phase p_link p_next p_seqs p_calls p_trace] in *; rewrite ?A, ?H; auto.
          - intros b q I. destruct (R4 b q I) as (D & D1 & D2 & D3 & D4 & D5). exists D. unfold all_writable, item_ok in *. rewrite V, P, H. auto 10.
          - intros b I. rewrite V, P. auto.
          - intros b op1 cs1 i I. apply in_app_or in I as [I|[I|[]]]; [exact (R10 _ _ _ _ I)|]. inversion I. subst. split; [lia|]. intros q Q.
            pose proof (r_next _ RO) as NX. rewrite Forall_forall in NX. specialize (NX _ Q). cbn in NX. lia. }
        unfold send_none. rewrite NA. destruct (l_up (p_link s)); [|apply FR; [|reflexivity]; eapply frame_trans; [apply (frame_next (p_next s)); lia|apply frame_emit; exact I]].
        destruct (wire_has _ _); [apply FR; [|reflexivity]; eapply frame_trans; [apply (frame_next (p_next s + 1)); lia|apply frame_emit; exact I]|].
        destruct (toWire _) as [w|e]; [split; [exact (PF w)|reflexivity]|apply FR; [|reflexivity]; eapply frame_trans; [apply (frame_next (p_next s + 1)); lia|apply frame_emit; exact I]].
    - destruct (same_bypass id vs s) as [B1 _ _ _ _ _ _ _ _]. apply FR; [apply frame_bypass|exact B1].
    - apply FR; [apply frame_emit; exact I|reflexivity].
  Qed.
  Lemma forward_resp id op cs s : resp_ok s -> p_conn s <> None -> resp_ok (forward id op cs s) /\ p_conn (forward id op cs s) = p_conn s.
  Proof.
    intros RO C. unfold ProxyModel.forward. destruct (p_client s); [|split; [now apply (frame_ok s _ (frame_queued _ _))|reflexivity]].
    assert (RO1 : resp_ok (emit (PAsk (p_asks s) id op cs) (with_asks (S (p_asks s)) s))) by (apply (frame_ok s); [eapply frame_trans; [apply frame_asks|apply frame_emit; exact I]|exact RO]).
    destruct (before op cs); try (apply (told_resp _ _ _ _ RO1 (fun _ => C))). split; [|reflexivity]. apply (frame_ok _ _ (frame_late _ _) RO1).
  Qed.
  Lemma told_later_resp n h s : resp_ok s -> (p_client s = true -> p_conn s <> None) -> resp_ok (told_later n h s).
  Proof.
    intros RO C. destruct (told_later_cases n h s) as [-> | (id & _ & _ & ->)]; [exact RO|]. apply told_resp; [|exact C]. apply (frame_ok _ _ (frame_late _ _) RO).
  Qed.
  Lemma backlog_resp l : forall s, resp_ok s -> p_conn s <> None -> resp_ok (backlog l s).
  Proof.
    induction l as [|((id & op) & cs) l IH]; intros s RO C; [exact RO|]. cbn [ProxyModel.backlog].
    destruct (forward_resp id op cs (with_queued l s) (frame_ok _ _ (frame_queued l s) RO) C) as (RO' & E). apply IH; [exact RO'|rewrite E; exact C].
  Qed.

  (** All but the dseq of message [b0] *)
  Record resp_but (b0 : Z) (s : pst) : Prop := mkBut {
    u_nodup : NoDup (map fst (p_seqs s));
    u_next : Forall (fun x => fst x < p_next s) (p_seqs s);
    u_wire : incl (map fst (l_wire (p_link s))) (map fst (p_seqs s));
    u_seq : forall b q, b <> b0 -> In (b, q) (p_seqs s) -> seq_ok (p_conn s) (p_trace s) b q;
    u_none : forall b, ~ In b (map fst (p_seqs s)) -> arrivals b (p_trace s) = [] /\ replies b (p_trace s) = [];
    u_arr : Forall (fun n => n < p_calls s)%nat (map snd (arr (p_trace s)));
    u_arrs : NoDup (map snd (arr (p_trace s)));
    u_hook : Forall (fun n => n < p_calls s)%nat (map fst (hooks (p_trace s)));
    u_hooks : NoDup (map fst (hooks (p_trace s)));
    u_fwd : forall b op cs id, In (PForward b op cs id) (p_trace s) -> b < p_next s /\ forall q, In (b, q) (p_seqs s) -> q_id q = id;
    u_conn : p_conn s = None -> p_seqs s = [] /\ p_phase s = PhNew;
    u_new : p_phase s = PhNew -> p_conn s = None }.
  Lemma set_seq_keys b q : forall l, map fst (set_seq b q l) = map fst l.
  Proof. induction l as [|(i & q') l IH]; [reflexivity|]. cbn [set_seq]. destruct (i =? b); [reflexivity|]. cbn [map]. now rewrite IH. Qed.
  Lemma set_seq_in b q : forall l b' q', NoDup (map fst l) -> In (b', q') (set_seq b q l) -> (b' = b /\ q' = q) \/ (b' <> b /\ In (b', q') l).
  Proof.
    induction l as [|(i & q0) l IH]; intros b' q' N I; [contradiction|]. cbn [set_seq] in I. cbn [map fst] in N. inversion N as [|? ? NI N']. subst. destruct (i =? b) eqn:E.
    - apply Z.eqb_eq in E. subst i. destruct I as [I|I]; [inversion I; auto|]. right. split; [|now right]. intros ->. apply NI. apply in_map_iff. exists (b, q'). auto.
    - destruct I as [I|I]; [inversion I; subst; right; split; [lia|now left]|]. destruct (IH b' q' N' I) as [H|(H & H')]; [now left|right]. split; [exact H|now right].
  Qed.
  Lemma drained D items t : Forall (item_ok t) (goods D ++ items) -> Forall (fun x => In (fst x, Some (snd x)) (hooks t)) D /\ Forall (item_ok t) items.
  Proof.
    intros H. apply Forall_app in H as (H & H'). split; [|exact H']. rewrite Forall_forall in *. intros x X. apply (H (fst x, DGood (snd x))). apply in_map_iff. eauto.
  Qed.
  Lemma goods_fst D : map fst (goods D) = map fst D. Proof. unfold goods. rewrite map_map. reflexivity. Qed.
  Lemma run_seq_ok s b q q0 D : resp_but b s -> In (b, q0) (p_seqs s) -> q_id q0 = q_id q ->
    arrivals b (p_trace s) = map fst D ++ map fst (q_items q) -> Forall (fun x => In (fst x, Some (snd x)) (hooks (p_trace s))) D -> Forall (item_ok (p_trace s)) (q_items q) ->
    subseq (replies b (p_trace s)) (map (pair (q_id q)) (vals D)) ->
    (p_conn s <> Some false -> all_writable b (q_id q) (p_trace s) -> replies b (p_trace s) = map (pair (q_id q)) (vals D) /\ (q_items q = [] \/ q_linked q = true)) ->
    resp_ok (run_seq b q s).
  Proof.
    intros [R1 R2 R3 R4 R5 R6 R7 R8 R9 R10 R11 R12] IN EQ D1 D2 D3 D4 D5.
    assert (GO : forall items linked o D', Forall (talk b) o -> q_items q = goods D' ++ items -> subseq (replies b o) (map (pair (q_id q)) (vals D')) ->
      (p_conn s <> Some false -> all_writable b (q_id q) (p_trace s) -> replies b o = map (pair (q_id q)) (vals D') /\ (items = [] \/ linked = true /\ first_open items)) ->
      resp_ok (mkP (p_conn s) (p_phase s) (p_client s) (p_link s) (p_queued s) (p_unbound s) (p_tls s) (p_next s) (set_seq b (mkSeq items linked (q_id q)) (p_seqs s)) (p_calls s) (p_asks s) (p_late s) (p_trace s ++ o))).
    { intros items linked o D' TK EI SB EX. destruct (talk_nothing b o TK) as (O1 & O2 & O3 & O4).
      assert (OV : forall b', arrivals b' o = []).
      { intros b'. destruct (arrivals b' o) as [|n l] eqn:E; [reflexivity|]. exfalso. assert (X : In (b', n) (arr o)) by (apply arrivals_arr; rewrite E; now left). rewrite O1 in X. exact X. }
      assert (EH : hooks (p_trace s ++ o) = hooks (p_trace s)) by (rewrite hooks_app, O2; apply app_nil_r).
      assert (EA : arr (p_trace s ++ o) = arr (p_trace s)) by (rewrite arr_app, O1; apply app_nil_r).
      assert (EV : forall b', arrivals b' (p_trace s ++ o) = arrivals b' (p_trace s)) by (intros b'; rewrite arrivals_app, OV; apply app_nil_r).
      constructor; cbn [p_conn p_phase p_link p_next p_seqs p_calls p_trace]; rewrite ?set_seq_keys, ?EA, ?EH; auto.
      - rewrite Forall_forall in *. intros (b' & q') X. apply set_seq_in in X as [(-> & ->)|(_ & X)]; [exact (R2 _ IN)|exact (R2 _ X)|exact R1].
      - intros b' q' X. apply set_seq_in in X as [(-> & ->)|(NE & X)]; [| |exact R1].
        + rewrite EI in D1, D3. destruct (drained D' items _ D3) as (D6 & D7). exists (D ++ D'). cbn [q_items q_linked q_id]. unfold all_writable, item_ok in *. rewrite EV, EH, replies_app, vals_app, !map_app.
          split; [rewrite D1, map_app, goods_fst; symmetry; apply app_assoc_reverse|]. split; [apply Forall_app; auto|]. split; [exact D7|]. split; [now apply subseq_app|].
          intros C W. destruct (D5 C W) as (D8 & _). destruct (EX C W) as (D9 & D10). rewrite D8, D9. auto.
        + destruct (R4 b' q' NE X) as (D0 & E1 & E2 & E3 & E4 & E5). exists D0. unfold all_writable, item_ok in *. rewrite EV, EH, replies_app, (O3 b' NE), app_nil_r. auto 10.
      - intros b' X. rewrite EV, replies_app. destruct (R5 b' X) as (-> & ->). split; [reflexivity|]. apply O3. intros ->. apply X. apply in_map_iff. exists (b, q0). auto.
      - intros b' op cs id X. apply in_app_or in X as [X|X]; [|now apply O4 in X]. destruct (R10 _ _ _ _ X) as (Y & Z). split; [exact Y|]. intros q' Q. apply set_seq_in in Q as [(-> & ->)|(_ & Q)]; [|auto|exact R1].
        cbn. rewrite <- EQ. auto.
      - intros C. destruct (R11 C) as (E & _). rewrite E in IN. contradiction. }
    unfold run_seq. destruct (q_linked q) eqn:L.
    - destruct (drain_ok (q_id q) b (q_items q) s) as (D' & items' & linked & o & E & EI & TK & SB & EX). rewrite E. apply (GO items' linked o D' TK EI SB).
      intros C W. assert (CT : p_conn s = Some true). { destruct (p_conn s) as [[]|] eqn:PC; [reflexivity|congruence|]. destruct (R11 eq_refl) as (E0 & _). rewrite E0 in IN. contradiction. }
      destruct (EX CT) as (E1 & E2 & E3); [|auto]. intros n v I. apply (W n v).
      + rewrite D1. apply in_or_app. right. apply in_map_iff. exists (n, DGood (Some v)). auto.
      + rewrite Forall_forall in D3. exact (D3 _ I).
    - pose proof (GO (q_items q) (q_linked q) [] []) as G. rewrite app_nil_r in G. destruct q as [it li iq]. apply G; [constructor|reflexivity|constructor|].
      intros C W. cbn [vals flat_map map q_items q_linked] in *. split; [reflexivity|]. destruct (D5 C W) as (_ & [X|X]); [now left|congruence].
  Qed.

  (** Events about other messages *)
  Lemma seq_more conn t b q o : seq_ok conn t b q -> arrivals b o = [] -> replies b o = [] -> (forall n r, In (n, r) (hooks o) -> ~ In n (arrivals b t)) -> seq_ok conn (t ++ o) b q.
  Proof.
    intros (D & D1 & D2 & D3 & D4 & D5) A P H. exists D. rewrite arrivals_app, replies_app, A, P, !app_nil_r. split; [exact D1|]. unfold all_writable, item_ok in *. rewrite hooks_app.
    split; [eapply Forall_impl; [|exact D2]; intros x X; apply in_or_app; now left|]. split.
    { rewrite Forall_forall in *. intros (n & d) X. specialize (D3 _ X). cbn [fst snd] in *. destruct d; try (apply in_or_app; now left). rewrite map_app. intros Y. apply in_app_or in Y as [Y|Y]; [contradiction|].
      apply in_map_iff in Y as ((n' & r) & E & Y). cbn in E. subst n'. apply (H n r Y). rewrite D1. apply in_or_app. right. apply in_map_iff. exists (n, DWait). auto. }
    split; [exact D4|]. intros C W. apply D5; [exact C|]. intros n v I J. apply (W n v); [rewrite arrivals_app; apply in_or_app; now left|apply in_or_app; now left].
  Qed.
  Lemma key_in (s : pst) b : In b (map fst (p_seqs s)) -> exists q, find (fun x => fst x =? b) (p_seqs s) = Some (b, q) /\ In (b, q) (p_seqs s).
  Proof.
    intros I. destruct (find (fun x => fst x =? b) (p_seqs s)) as [(b' & q)|] eqn:E.
    - apply find_some in E as (E & X). cbn in X. apply Z.eqb_eq in X. subst b'. eauto.
    - exfalso. apply in_map_iff in I as (x & <- & X). pose proof (find_none _ _ E x X) as Y. cbn in Y. lia.
  Qed.
  Lemma got_resp b v w s : resp_ok s -> In b (map fst (p_seqs s)) -> resp_ok (got_response after b v w s).
  Proof.
    intros RO IB. destruct (key_in s b IB) as (q & FQ & IQ). pose proof RO as [R1 R2 R3 R4 R5 R6 R7 R8 R9 R10 R11 R12].
    destruct (R4 b q IQ) as (D & D1 & D2 & D3 & D4 & D5).
    assert (NB : forall b', ~ In (p_calls s) (arrivals b' (p_trace s))).
    { intros b' X. apply arrivals_arr in X. rewrite Forall_forall in R6. assert (Y : In (p_calls s) (map snd (arr (p_trace s)))) by (apply in_map_iff; exists (b', p_calls s); auto). specialize (R6 _ Y). cbn in R6. lia. }
    assert (NH : ~ In (p_calls s) (map fst (hooks (p_trace s)))) by (intros X; rewrite Forall_forall in R8; specialize (R8 _ X); cbn in R8; lia).
    assert (GO : forall d h, (h = [] /\ d = DWait \/ exists r, h = [PHook (p_calls s) r] /\ d = match r with Some x => DGood x | None => DBad end) ->
      resp_ok (run_seq b (mkSeq (q_items q ++ [(p_calls s, d)]) (match q_items q ++ [(p_calls s, d)] with [_] => true | _ => q_linked q end) (q_id q))
        (mkP (p_conn s) (p_phase s) (p_client s) (p_link s) (p_queued s) (p_unbound s) (p_tls s) (p_next s) (p_seqs s) (S (p_calls s)) (p_asks s) (p_late s) (p_trace s ++ PArrived b (p_calls s) v :: h)))).
    { intros d h HD. set (o := PArrived b (p_calls s) v :: h).
      assert (O1 : arr o = [(b, p_calls s)]) by (destruct HD as [(-> & _)|(r & -> & _)]; reflexivity).
      assert (O2 : hooks o = hooks h) by reflexivity.
      assert (O3 : forall n r, In (n, r) (hooks o) -> n = p_calls s) by (intros n r X; destruct HD as [(-> & _)|(r' & -> & _)]; [contradiction|destruct X as [X|[]]; congruence]).
      assert (O4 : forall b', replies b' o = []) by (intros b'; destruct HD as [(-> & _)|(r & -> & _)]; reflexivity).
      assert (O5 : arrivals b o = [p_calls s]) by (unfold o; cbn; rewrite Z.eqb_refl; destruct HD as [(-> & _)|(r & -> & _)]; reflexivity).
      assert (O6 : forall b', b' <> b -> arrivals b' o = []) by (intros b' NE; unfold o; cbn; destruct (b =? b') eqn:E; [lia|]; destruct HD as [(-> & _)|(r & -> & _)]; reflexivity).
      assert (O7 : forall b' op cs id, ~ In (PForward b' op cs id) o) by (intros b' op cs id [X|X]; [discriminate|]; destruct HD as [(-> & _)|(r & -> & _)]; [contradiction|destruct X as [X|[]]; discriminate]).
      assert (O8 : NoDup (map fst (hooks (p_trace s)) ++ map fst (hooks o))).
      { destruct HD as [(-> & _)|(r & -> & _)]; cbn; [rewrite app_nil_r; exact R9|]. apply NoDup_snoc; auto. }
      apply (run_seq_ok _ b _ q D).
      - constructor; cbn [p_conn p_phase p_link p_next p_seqs p_calls p_trace]; rewrite ?arr_app, ?hooks_app, ?map_app, ?O1; auto.
        + intros b' q' NE X. apply seq_more; auto. intros n r Y. rewrite (O3 n r Y). apply NB.
        + intros b' X. rewrite arrivals_app, replies_app, O4, O6; [rewrite !app_nil_r; auto|]. intros ->. contradiction.
        + apply Forall_app. split; [eapply Forall_impl; [|exact R6]; cbn; intros; lia|constructor; [cbn; lia|constructor]].
        + apply NoDup_snoc; [exact R7|]. intros X. apply in_map_iff in X as ((b' & n) & E & X). cbn in E. subst n. apply arrivals_arr in X. exact (NB _ X).
        + apply Forall_app. split; [eapply Forall_impl; [|exact R8]; cbn; intros; lia|]. rewrite Forall_forall. intros n X. apply in_map_iff in X as ((n' & r) & E & X). cbn in E. subst n'. rewrite (O3 _ _ X). lia.
        + intros b' op cs id X. apply in_app_or in X as [X|X]; [eauto|now apply O7 in X].
      - exact IQ.
      - reflexivity.
      - cbn [q_items p_trace]. rewrite arrivals_app, O5, D1, map_app. symmetry. apply app_assoc.
      - cbn [p_trace]. rewrite hooks_app. eapply Forall_impl; [|exact D2]. intros x X. apply in_or_app. now left.
      - cbn [p_trace q_items]. apply Forall_app. split.
        + rewrite Forall_forall in *. intros (n & d') X. specialize (D3 _ X). unfold item_ok in *. cbn [fst snd] in *. rewrite hooks_app. destruct d'; try (apply in_or_app; now left).
          rewrite map_app. intros Y. apply in_app_or in Y as [Y|Y]; [contradiction|]. apply in_map_iff in Y as ((n' & r) & E & Y). cbn in E. subst n'. rewrite (O3 _ _ Y) in X. apply (NB b). rewrite D1. apply in_or_app. right.
          apply in_map_iff. exists (p_calls s, DWait). auto.
        + constructor; [|constructor]. unfold item_ok. cbn [fst snd]. rewrite hooks_app. destruct HD as [(-> & ->)|(r & -> & ->)].
          * cbn. rewrite app_nil_r. exact NH.
          * destruct r as [x|]; apply in_or_app; right; now left.
      - cbn [p_trace q_id]. rewrite replies_app, O4, app_nil_r. exact D4.
      - cbn [p_trace p_conn q_id q_items q_linked]. intros C W. destruct (D5 C) as (D6 & D7).
        { intros n x I J. apply (W n x); [rewrite arrivals_app; apply in_or_app; now left|rewrite hooks_app; apply in_or_app; now left]. }
        rewrite replies_app, O4, app_nil_r. split; [exact D6|]. right. destruct D7 as [D7|(D7 & _)]; [rewrite D7; reflexivity|]. rewrite D7. destruct (q_items q ++ [(p_calls s, d)]) as [|? [|? ?]]; reflexivity. }
    unfold got_response. cbn [p_calls p_seqs emit with_calls].
    destruct (after v (ps_op w) (ps_cs w)) as [r| |]; cbn [p_calls p_seqs emit with_calls]; rewrite FQ.
    - unfold emit, with_calls. cbn [p_conn p_phase p_client p_link p_queued p_unbound p_tls p_next p_seqs p_calls p_trace]. rewrite <- app_assoc. apply GO. right. exists (Some r). auto.
    - apply GO. now left.
    - unfold emit, with_calls. cbn [p_conn p_phase p_client p_link p_queued p_unbound p_tls p_next p_seqs p_calls p_trace]. rewrite <- app_assoc. apply GO. right. exists None. auto.
  Qed.
  Lemma settle_fst n d l : map fst (settle n d l) = map fst l.
  Proof. unfold settle. rewrite map_map. apply map_ext. intros (m & x). cbn. now destruct (Nat.eqb m n). Qed.
  Lemma later_resp n r s : resp_ok s -> resp_ok (later n r s).
  Proof.
    intros RO. unfold later. destruct (find _ _) as [(b & q)|] eqn:FQ; [|exact RO]. apply find_some in FQ as (IQ & WT). cbn [snd] in WT. pose proof RO as [R1 R2 R3 R4 R5 R6 R7 R8 R9 R10 R11 R12].
    destruct (R4 b q IQ) as (D & D1 & D2 & D3 & D4 & D5). unfold waits in WT. apply existsb_exists in WT as ((m & d0) & IW & E). cbn [fst snd] in E. apply andb_prop in E as (E1 & E2).
    apply Nat.eqb_eq in E1. subst m. destruct d0; try discriminate. clear E2.
    assert (NH : ~ In n (map fst (hooks (p_trace s)))) by (rewrite Forall_forall in D3; exact (D3 _ IW)).
    assert (NA : In (b, n) (arr (p_trace s))) by (apply arrivals_arr; rewrite D1; apply in_or_app; right; apply in_map_iff; exists (n, DWait); auto).
    set (d := match r with Some v => DGood v | None => DBad end).
    apply (run_seq_ok _ b _ q D).
    - constructor; cbn [emit p_conn p_phase p_link p_next p_seqs p_calls p_trace]; rewrite ?arr_app, ?hooks_app, ?map_app; cbn [arr hooks flat_map app map]; rewrite ?app_nil_r; auto.
      + intros b' q' NE X. apply seq_more; auto. intros n' r' [Y|[]]. inversion Y. subst n' r'. intros I. apply arrivals_arr in I. apply NE. exact (NoDup_snd_inj _ _ _ _ R7 I NA).
      + intros b' X. rewrite arrivals_app, replies_app. cbn. rewrite !app_nil_r. auto.
      + apply Forall_app. split; [exact R8|]. constructor; [|constructor]. rewrite Forall_forall in R6. apply R6. apply in_map_iff. exists (b, n). auto.
      + apply NoDup_snoc; auto.
      + intros b' op cs id X. apply in_app_or in X as [X|[X|[]]]; [eauto|discriminate].
    - exact IQ.
    - reflexivity.
    - cbn [emit p_trace q_items]. rewrite arrivals_app, settle_fst. cbn. rewrite app_nil_r. exact D1.
    - cbn [emit p_trace]. rewrite hooks_app. eapply Forall_impl; [|exact D2]. intros x X. apply in_or_app. now left.
    - cbn [emit p_trace q_items]. rewrite Forall_forall in *. intros y Y. unfold settle in Y. apply in_map_iff in Y as ((m & x) & <- & Y). specialize (D3 _ Y). unfold item_ok in *. cbn [fst snd] in *. rewrite hooks_app.
      destruct (Nat.eqb m n) eqn:E; cbn [fst snd].
      + apply Nat.eqb_eq in E. subst m. destruct x; [|apply in_or_app; now left|apply in_or_app; now left]. unfold d. destruct r as [v|]; apply in_or_app; right; now left.
      + apply Nat.eqb_neq in E. destruct x; try (apply in_or_app; now left). rewrite map_app. intros X. apply in_app_or in X as [X|[X|[]]]; [contradiction|]. cbn in X. congruence.
    - cbn [emit p_trace q_id]. rewrite replies_app. cbn. rewrite app_nil_r. exact D4.
    - cbn [emit p_trace p_conn q_id q_items q_linked]. intros C W. destruct (D5 C) as (D6 & D7).
      { intros m x I J. apply (W m x); [rewrite arrivals_app; apply in_or_app; now left|rewrite hooks_app; apply in_or_app; now left]. }
      rewrite replies_app. cbn. rewrite app_nil_r. split; [exact D6|]. destruct D7 as [D7|(D7 & _)]; [rewrite D7 in IW; contradiction|now right].
  Qed.
  Lemma handle_resp msg s : p_conn s <> None -> resp_ok s -> resp_ok (handle before options msg s).
  Proof.
    intros C RO. unfold handle. destruct msg as [| | | | | | | | |tag id op cs| | | | | | | | | | | |]; try (apply (frame_ok s); [apply frame_emit; exact I|exact RO]).
    destruct (kind_of op); [|apply (frame_ok s); [apply frame_emit; exact I|exact RO]].
    assert (RO1 : resp_ok (emit (PGot id op cs) s)) by (apply (frame_ok s); [apply frame_emit; exact I|exact RO]).
    set (body := match op with OExtReq _ _ _ => _ | _ => _ end).
    assert (GO : resp_ok body).
    { unfold body. destruct op as [| | |k tg| | | | | | | | | | | | | | | | | |tg nm v]; try (apply forward_resp; [exact RO1|exact C]).
      - destruct k; try (apply forward_resp; [exact RO1|exact C]). apply forward_resp; [|exact C]. exact (frame_ok _ _ (frame_unbound true _) RO1).
      - destruct nm as [|z|nm]; try (apply forward_resp; [exact RO1|exact C]).
        destruct (bytes_eqb nm starttls_oid) eqn:E; [exact (frame_ok _ _ (frame_start_tls options id _) RO1)|apply forward_resp; [exact RO1|exact C]]. }
    clearbody body. destruct id as [|z|bs]; try exact GO. destruct z; [exact RO|exact GO|exact GO].
  Qed.
  Lemma response_resp msg s : resp_ok s -> resp_ok (response after msg s).
  Proof.
    intros RO. assert (FE : forall e, resp_ok (emit (PRaised e) s)) by (intros e; apply (frame_ok s); [apply frame_emit; exact I|exact RO]).
    unfold response. destruct msg as [| | | | | | | | |tag id v cs| | | | | | | | | | | |]; try apply FE.
    destruct (is_response v); [|apply FE]. destruct id as [|i|bs]; try apply FE. destruct (i =? 0); [exact RO|].
    destruct (find _ _) as [(j & w)|] eqn:FW; [|apply FE]. apply find_some in FW as (IW & E). cbn in E. apply Z.eqb_eq in E. subst j.
    assert (G : resp_ok (got_response after i v w s)). { apply got_resp; [exact RO|]. apply (r_wire _ RO). apply in_map_iff. exists (i, w). auto. }
    destruct (last_response v); [|exact G]. eapply frame_ok; [|exact G]. apply frame_link.
    cbn [l_wire]. intros x X. apply in_map_iff in X as (y & <- & Y). apply filter_In in Y as (Y & _). now apply in_map.
  Qed.
  Lemma not_none s : resp_ok s -> p_phase s <> PhNew -> p_conn s <> None.
  Proof. intros RO P C. apply P. now apply (r_conn _ RO). Qed.
  Lemma step_resp s e : phase_ok s -> resp_ok s -> resp_ok (step s e).
  Proof.
    intros PO RO. destruct e as [| | |ok|msg|msg| | |n h|n r|n]; cbn [ProxyModel.step].
    - destruct (p_phase s) eqn:PH; try exact RO. destruct (p_conn s) as [c|] eqn:C.
      + pose proof (r_new _ RO PH). congruence.
      + apply (frame_ok s); [|exact RO]. constructor; try reflexivity; [apply incl_refl|exists []; split; [symmetry; apply app_nil_r|constructor]|congruence|discriminate|discriminate].
    - destruct (p_phase s) eqn:PH; try exact RO. assert (C : p_conn s <> None) by (apply not_none; [exact RO|congruence]).
      assert (F1 : frame s (with_link (mkLink true []) s)) by (apply frame_link; intros x []).
      destruct use_tls; [apply (frame_ok s); [|exact RO]; eapply frame_trans; [exact F1|apply frame_phase; [discriminate|exact C]]|].
      assert (F2 : frame s (with_phase PhDone (with_link (mkLink true []) s))) by (eapply frame_trans; [exact F1|apply frame_phase; [discriminate|exact C]]).
      cbn [with_phase with_link p_conn]. destruct (p_conn s) as [[]|] eqn:CO; [| |congruence].
      + apply backlog_resp; [|cbn; congruence]. apply (frame_ok s); [|exact RO]. eapply frame_trans; [exact F2|apply frame_client].
      + apply (frame_ok s); [|exact RO]. eapply frame_trans; [exact F2|]. eapply frame_trans; [|apply frame_queued]. apply frame_emit. exact I.
    - destruct (p_phase s) eqn:PH; try exact RO. assert (C : p_conn s <> None) by (apply not_none; [exact RO|congruence]).
      apply (frame_ok s); [|exact RO]. eapply frame_trans; [apply (frame_phase PhDone); [discriminate|exact C]|apply frame_refuse].
    - destruct (p_phase s) eqn:PH; try exact RO. assert (C : p_conn s <> None) by (apply not_none; [exact RO|congruence]). destruct ok.
      + apply backlog_resp; [|exact C]. apply (frame_ok s); [|exact RO]. eapply frame_trans; [apply (frame_phase PhDone); [discriminate|exact C]|apply frame_client].
      + apply (frame_ok s); [|exact RO]. eapply frame_trans; [apply (frame_phase PhDone); [discriminate|exact C]|apply frame_refuse].
    - destruct (p_conn s) as [[]|] eqn:C; [|exact RO|exact RO]. apply handle_resp; [congruence|exact RO].
    - destruct (l_up (p_link s)); [|exact RO]. now apply response_resp.
    - apply (frame_ok s); [|exact RO]. apply frame_link. intros x [].
    - destruct (p_conn s) as [[]|] eqn:C; [|exact RO|exact RO]. apply (frame_ok s); [|exact RO].
      set (s1 := if p_client s && l_up (p_link s) then _ else s).
      assert (F1 : frame s s1).
      { unfold s1. destruct (p_client s && l_up (p_link s)); [|apply frame_refl]. destruct (p_unbound s); [apply frame_emit; exact I|].
        eapply frame_trans; [apply (frame_next (p_next s + 1)); lia|]. eapply frame_trans; [apply (frame_emit PUnbind); exact I|]. eapply frame_trans; [apply (frame_emit PCloseServer); exact I|apply frame_unbound]. }
      assert (C1 : p_conn s1 = Some true) by (unfold s1; destruct (p_client s && l_up (p_link s)); [destruct (p_unbound s); exact C|exact C]).
      clearbody s1. eapply frame_trans; [exact F1|]. eapply frame_trans; [apply (frame_client false)|].
      constructor; try reflexivity; [apply incl_refl|exists [PLost]; split; [reflexivity|constructor; [exact I|constructor]]|discriminate|].
      cbn. intros H P. specialize (H P). congruence.
    - apply told_later_resp; [exact RO|]. intros PC. apply not_none; [exact RO|]. intros PH. rewrite PO in PC; [discriminate|congruence].
    - now apply later_resp.
    - apply (frame_ok s); [|exact RO]. apply frame_next. lia.
  Qed.

  Lemma run_resp next es : resp_ok (run next es).
  Proof.
    unfold ProxyModel.run. assert (G : resp_ok (p0 next)).
    { constructor; cbn; auto; try (intros; contradiction); try (intros x []); constructor. }
    revert G. generalize (start_ok before next). generalize (p0 next). induction es as [|e es IH]; intros s (Q & P) G; [exact G|]. cbn [fold_left]. apply IH; [now apply step_ok|now apply step_resp].
  Qed.
  Lemma order next es b op cs id : let s := run next es in In (PForward b op cs id) (p_trace s) -> exists D Q,
    arrivals b (p_trace s) = map fst D ++ Q /\ Forall (fun x => gave (fst x) (Some (snd x)) (p_trace s)) D /\ subseq (replies b (p_trace s)) (map (pair id) (vals D)) /\
    (p_conn s = Some true -> (forall n v, In n (arrivals b (p_trace s)) -> gave n (Some (Some v)) (p_trace s) -> writable id v) ->
       replies b (p_trace s) = map (pair id) (vals D) /\ (forall n Q' r, Q = n :: Q' -> ~ gave n (Some r) (p_trace s))).
  Proof.
    cbn zeta. intros I. destruct (run_resp next es) as [R1 R2 R3 R4 R5 R6 R7 R8 R9 R10 R11 R12]. set (s := run next es) in *.
    destruct (in_dec Z.eq_dec b (map fst (p_seqs s))) as [IB|NI].
    - destruct (key_in s b IB) as (q & _ & IQ). destruct (R10 _ _ _ _ I) as (_ & EQ). specialize (EQ q IQ). destruct (R4 b q IQ) as (D & D1 & D2 & D3 & D4 & D5). rewrite EQ in *.
      exists D, (map fst (q_items q)). split; [exact D1|]. split; [eapply Forall_impl; [|exact D2]; intros x X; apply gave_hooks, X|]. split; [exact D4|].
      intros C W. destruct D5 as (D6 & D7); [congruence|intros n v J H; apply (W n v J); now apply gave_hooks|]. split; [exact D6|]. intros n Q' r E G. apply gave_hooks in G.
      destruct (q_items q) as [|(m & d) l] eqn:QI; [discriminate|]. cbn [map fst] in E. inversion E. subst m. pose proof (Forall_inv D3) as IO. unfold item_ok in IO. cbn [fst snd] in IO.
      destruct D7 as [X|(_ & FO)]; [discriminate|]. cbn in FO. destruct d as [|v|]; [|contradiction|].
      + apply IO. apply in_map_iff. exists (n, Some r). auto.
      + pose proof (NoDup_fst_inj _ _ _ _ R9 IO G). discriminate.
    - destruct (R5 b NI) as (E1 & E2). exists [], []. rewrite E1, E2. split; [reflexivity|]. split; [constructor|]. split; [constructor|]. intros _ _. split; [reflexivity|discriminate].
  Qed.
  Lemma gave_once next es n r r' : gave n r (p_trace (run next es)) -> gave n r' (p_trace (run next es)) -> r = r'.
  Proof. intros G G'. apply gave_hooks in G, G'. exact (NoDup_fst_inj _ _ _ _ (r_hooks _ (run_resp next es)) G G'). Qed.
  Lemma arrivals_once next es b : NoDup (arrivals b (p_trace (run next es))).
  Proof. apply NoDup_arrivals, (r_arrs _ (run_resp next es)). Qed.
End Order.
