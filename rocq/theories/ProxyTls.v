(** Proofs about ProxyBase: StartTLS of the client, and a server that cannot be reached. *)
From Verif Require Import Base BaseFacts BerModel LdapModel LdapSpec ServerModel ClientModel ProxyModel ProxySpec ProxyProofs ProxyOrder ProxyEnd.

(** ** Traces *)
(** What a trace must look like; [on]: TLS has been started *)
Fixpoint tls_ok (options on : bool) (t : list pev) : Prop :=
  match t with
  | [] => True
  | PTls :: _ => False
  | PGot id op _ :: r =>
      if is_starttls op then
        match r with
        | PReply id' v None :: r' =>
            id' = id /\ v = tls_reply (tls_code options on) /\
            if options && negb on then match r' with PTls :: r2 => tls_ok options true r2 | _ => False end else tls_ok options on r'
        | PRaised _ :: r' => ~ writable id (tls_reply (tls_code options on)) /\ tls_ok options on r'
        | _ => False
        end
      else tls_ok options on r
  | _ :: r => tls_ok options on r
  end.
Definition is_tls (e : pev) : bool := match e with PTls => true | _ => false end.
Definition neutral (e : pev) : Prop := match e with PTls => False | PGot _ op _ => is_starttls op = false | _ => True end.

Lemma tls_ok_app o : forall n t, (length t <= n)%nat -> forall on u, tls_ok o on t -> tls_ok o (on || existsb is_tls t) u -> tls_ok o on (t ++ u).
Proof.
  induction n as [|n IH]; intros t L on u H U.
  - destruct t; [|cbn in L; lia]. cbn in U. rewrite orb_false_r in U. exact U.
  - destruct t as [|e t]; [cbn in U; rewrite orb_false_r in U; exact U|]. cbn [length] in L.
    assert (SK : forall on', (is_tls e = false) -> on' = on -> tls_ok o on' t -> tls_ok o on' (t ++ u)).
    { intros on' E -> T. apply IH; [lia|exact T|]. cbn [existsb] in U. rewrite E in U. exact U. }
    destruct e as [id op cs|? ? ? ?|? ? ?|b op cs id|id v b|b m v|m r| | | | | |x]; cbn [app tls_ok] in *; try (apply SK; auto; fail); try contradiction.
    destruct (is_starttls op); [|apply SK; auto].
    destruct t as [|e t]; [contradiction|]. cbn [app length existsb is_tls orb] in *.
    destruct e as [id2 op2 cs2|? ? ? ?|? ? ?|b2 op2 cs2 id2|id2 v [b2|]|b2 m v|m r| | | | | |x]; try contradiction.
    + destruct H as (E1 & E2 & H). split; [exact E1|]. split; [exact E2|]. destruct (o && negb on) eqn:ON.
      * destruct t as [|e t]; [contradiction|]. destruct e; try contradiction. cbn [app length existsb is_tls orb] in *. apply IH; [lia|exact H|]. rewrite orb_true_r in U. exact U.
      * apply IH; [lia|exact H|exact U].
    + destruct H as (E1 & H). split; [exact E1|]. apply IH; [lia|exact H|exact U].
Qed.
Lemma neutral_ok o on t : Forall neutral t -> tls_ok o on t.
Proof.
  induction 1 as [|e t N _ IH]; [exact I|]. destruct e; cbn [tls_ok neutral] in *; try exact IH; [|contradiction]. rewrite N. exact IH.
Qed.
Lemma neutral_tls t : Forall neutral t -> existsb is_tls t = false.
Proof. induction 1 as [|e t N _ IH]; [reflexivity|]. cbn [existsb]. rewrite IH. destruct e; [..|contradiction| |]; reflexivity. Qed.

(** What such a trace says *)
Lemma tls_got o : forall n l, (length l <= n)%nat -> forall on id op cs r, tls_ok o on (l ++ PGot id op cs :: r) -> is_starttls op = true ->
  let c := tls_code o (on || existsb is_tls l) in
  (exists r', r = PReply id (tls_reply c) None :: r' /\ (c = 0 -> exists r2, r' = PTls :: r2)) \/
  (exists x r', r = PRaised x :: r' /\ ~ writable id (tls_reply c)).
Proof.
  induction n as [|n IH]; intros l L on id op cs r H S; [destruct l; [|cbn in L; lia]|destruct l as [|e l]].
  1, 2: (cbn [existsb app tls_ok] in *; rewrite orb_false_r; rewrite S in H; cbn zeta; destruct r as [|e r]; [contradiction|];
    destruct e as [id2 op2 cs2|? ? ? ?|? ? ?|b2 op2 cs2 id2|id2 v [b2|]|b2 m v|m rr| | | | | |x]; try contradiction;
    [destruct H as (-> & -> & H); left; eexists; split; [reflexivity|]; intros C; destruct o, on; try discriminate C; cbn [andb negb] in H; destruct r as [|[]]; try contradiction; eexists; reflexivity
    |right; exists x, r; split; [reflexivity|exact (proj1 H)]]).
  cbn [length] in L.
  assert (SK : is_tls e = false -> tls_ok o on (l ++ PGot id op cs :: r) -> let c := tls_code o (on || existsb is_tls (e :: l)) in
    (exists r', r = PReply id (tls_reply c) None :: r' /\ (c = 0 -> exists r2, r' = PTls :: r2)) \/ (exists x r', r = PRaised x :: r' /\ ~ writable id (tls_reply c))).
  { intros E T. cbn [existsb]. rewrite E. cbn [orb]. apply (IH l ltac:(lia) on id op cs r T S). }
  destruct e as [id2 op2 cs2|? ? ? ?|? ? ?|b2 op2 cs2 id2|id2 v b2|b2 m v|m rr| | | | | |x]; cbn [app tls_ok] in H; try (apply SK; [reflexivity|exact H]); try contradiction.
  destruct (is_starttls op2) eqn:S2; [|apply SK; [reflexivity|exact H]].
  destruct l as [|e l]; [contradiction|]. cbn [app length] in *. destruct e as [id3 op3 cs3|? ? ? ?|? ? ?|b3 op3 cs3 id3|id3 v [b3|]|b3 m v|m rr| | | | | |x]; try contradiction.
  - destruct H as (_ & _ & H). cbn [existsb is_tls orb]. destruct (o && negb on) eqn:ON.
    + destruct l as [|e l]; [contradiction|]. cbn [app length] in *. destruct e; try contradiction. cbn [existsb is_tls orb]. rewrite orb_true_r. apply (IH l ltac:(lia) true id op cs r H S).
    + apply (IH l ltac:(lia) on id op cs r H S).
  - destruct H as (_ & H). cbn [existsb is_tls orb]. apply (IH l ltac:(lia) on id op cs r H S).
Qed.
Lemma tls_on o : forall n t, (length t <= n)%nat -> tls_ok o true t -> existsb is_tls t = false.
Proof.
  induction n as [|n IH]; intros t L H; [destruct t; [reflexivity|cbn in L; lia]|]. destruct t as [|e t]; [reflexivity|]. cbn [length] in L.
  destruct e as [id op cs|? ? ? ?|? ? ?|b op cs id|id v b|b m v|m r| | | | | |x]; cbn [tls_ok existsb is_tls orb] in *; try (apply IH; [lia|exact H]); try contradiction.
  destruct (is_starttls op); [|apply IH; [lia|exact H]]. destruct t as [|e t]; [contradiction|]. cbn [length] in *.
  destruct e as [id2 op2 cs2|? ? ? ?|? ? ?|b2 op2 cs2 id2|id2 v [b2|]|b2 m v|m rr| | | | | |x]; try contradiction; cbn [existsb is_tls orb].
  - destruct H as (_ & _ & H). rewrite andb_false_r in H. apply IH; [lia|exact H].
  - destruct H as (_ & H). apply IH; [lia|exact H].
Qed.
Lemma tls_started o : forall n l, (length l <= n)%nat -> forall on r, tls_ok o on (l ++ PTls :: r) ->
  o = true /\ on = false /\ existsb is_tls l = false /\ existsb is_tls r = false /\
  exists l0 id op cs, l = l0 ++ [PGot id op cs; PReply id (tls_reply 0) None] /\ is_starttls op = true.
Proof.
  induction n as [|n IH]; intros l L on r H; [destruct l; [contradiction|cbn in L; lia]|]. destruct l as [|e l]; [contradiction|]. cbn [length] in L.
  assert (SK : forall on' p l', (length l' <= n)%nat -> tls_ok o on' (l' ++ PTls :: r) -> on' = on -> existsb is_tls p = false -> e :: l = p ++ l' ->
    o = true /\ on = false /\ existsb is_tls (e :: l) = false /\ existsb is_tls r = false /\
    exists l0 id op cs, e :: l = l0 ++ [PGot id op cs; PReply id (tls_reply 0) None] /\ is_starttls op = true).
  { intros on' p l' L' T -> P E. destruct (IH l' L' on r T) as (A & B & C & D & l0 & id & op & cs & -> & S). rewrite E, existsb_app, P, C. repeat (split; [assumption || reflexivity|]).
    exists (p ++ l0), id, op, cs. split; [now rewrite <- app_assoc|exact S]. }
  destruct e as [id2 op2 cs2|? ? ? ?|? ? ?|b2 op2 cs2 id2|id2 v b2|b2 m v|m rr| | | | | |x]; cbn [app tls_ok] in H; try contradiction;
    try (match goal with |- context [?e :: l] => apply (SK on [e] l); [lia|exact H|reflexivity|reflexivity|reflexivity] end).
  destruct (is_starttls op2) eqn:S2; [|apply (SK on [PGot id2 op2 cs2] l); [lia|exact H|reflexivity|reflexivity|reflexivity]].
  destruct l as [|e l]; [contradiction|]. cbn [app length] in *. destruct e as [id3 op3 cs3|? ? ? ?|? ? ?|b3 op3 cs3 id3|id3 v [b3|]|b3 m v|m rr| | | | | |x]; try contradiction.
  - destruct H as (-> & -> & H). destruct (o && negb on) eqn:ON.
    + apply andb_prop in ON as (-> & ON). destruct on; [discriminate|]. destruct l as [|e l]; cbn [app length] in *.
      * repeat (split; [reflexivity|]). split; [eapply tls_on; [reflexivity|exact H]|]. exists [], id2, op2, cs2. split; [reflexivity|exact S2].
      * destruct e; try contradiction. destruct (IH l ltac:(lia) true r H) as (_ & X & _). discriminate X.
    + apply (SK on [PGot id2 op2 cs2; PReply id2 (tls_reply (tls_code o on)) None] l); [lia|exact H|reflexivity|reflexivity|reflexivity].
  - destruct H as (_ & H). apply (SK on [PGot id2 op2 cs2; PRaised x] l); [lia|exact H|reflexivity|reflexivity|reflexivity].
Qed.

(** ** Runs *)
(** Requests and responses are passed on. *)
Definition relaying (e : pev) : Prop := match e with PAsk _ _ _ _ | PTold _ _ _ | PReply _ _ _ | PRaised _ | PForward _ _ _ _ | PArrived _ _ _ | PHook _ _ => True | _ => False end.
Section Keeps.
  Variable P : pev -> Prop.
  Hypothesis HP : forall e, relaying e -> P e.
  Definition keeps (s s' : pst) : Prop := ext P s s' /\ p_tls s' = p_tls s /\ p_conn s' = p_conn s /\ p_phase s' = p_phase s.
Lemma keeps_refl s : keeps s s. Proof. split; [apply ext_refl|auto]. Qed.
Lemma keeps_trans s t u : keeps s t -> keeps t u -> keeps s u.
Proof. intros (A & B & C & D) (E & F & G & H). split; [eapply ext_trans; eauto|]. repeat split; congruence. Qed.
Lemma keeps_emit e s : P e -> keeps s (emit e s).
Proof. intros N. split; [now apply ext_emit|auto]. Qed.
Lemma keeps_same s s' : p_trace s' = p_trace s -> p_tls s' = p_tls s -> p_conn s' = p_conn s -> p_phase s' = p_phase s -> keeps s s'.
Proof. intros A B C D. split; [now apply ext_same|auto]. Qed.
Lemma keeps_reply id b v s : keeps s (fst (reply id b v s)).
Proof. destruct (reply_cases id b v s) as [->|(w & _ & _ & ->)]; [apply keeps_refl|]. cbn [fst]. (apply keeps_emit; now apply HP). Qed.
Lemma keeps_bypass id vs : forall s, keeps s (bypass id vs s).
Proof.
  induction vs as [|v vs IH]; intros s; [apply keeps_refl|]. cbn [bypass]. pose proof (keeps_reply id None v s) as K. destruct (reply id None v s) as (s' & [u|e]); cbn [fst] in K.
  - eapply keeps_trans; [exact K|apply IH].
  - eapply keeps_trans; [exact K|(apply keeps_emit; now apply HP)].
Qed.
Lemma keeps_refuse : P PCloseClient -> forall l s, keeps s (refuse l s).
Proof.
  intros PC. induction l as [|((id & op) & cs) l IH]; intros s; cbn [refuse]; [now apply keeps_emit|].
  assert (Q : keeps s (with_queued l s)) by now apply keeps_same. destruct op; try (eapply keeps_trans; [exact Q|apply IH]).
  eapply keeps_trans; [exact Q|]. match goal with |- context [reply id None (Some ?v) _] => pose proof (keeps_reply id None (Some v) (with_queued l s)) as K; destruct (reply id None (Some v) (with_queued l s)) as (s' & [u|e]) end; cbn [fst] in K.
  - eapply keeps_trans; [exact K|apply IH].
  - eapply keeps_trans; [exact K|(apply keeps_emit; now apply HP)].
Qed.
Lemma keeps_drain id b items : forall s, keeps s (snd (drain id b items s)).
Proof.
  induction items as [|(n & [|v|]) items IH]; intros s; try apply keeps_refl. cbn [drain]. pose proof (keeps_reply id (Some b) v s) as K. destruct (reply id (Some b) v s) as (s' & [u|e]); cbn [fst snd] in *.
  - eapply keeps_trans; [exact K|apply IH].
  - eapply keeps_trans; [exact K|(apply keeps_emit; now apply HP)].
Qed.
Lemma keeps_run_seq b q s : keeps s (run_seq b q s).
Proof.
  unfold run_seq. destruct (q_linked q); [|now apply keeps_same]. pose proof (keeps_drain (q_id q) b (q_items q) s) as K. destruct (drain _ _ _ _) as ((it & li) & s'). cbn [snd] in K.
  eapply keeps_trans; [exact K|now apply keeps_same].
Qed.

  Variable before : obj -> ctrls -> hook.
  Variable after : obj -> obj -> ctrls -> ahook.
  Notation forward := (forward before).
  Notation backlog := (backlog before).

  Lemma keeps_told n id h s : keeps s (told n id h s).
  Proof.
    unfold told. destruct h as [op' cs'|vs| |] eqn:EH; [| | |apply keeps_refl]; rewrite <- EH; (eapply keeps_trans; [apply (keeps_emit (PTold n id h)); now apply HP|]); [|apply keeps_bypass|apply keeps_emit; now apply HP].
    set (s1 := emit (PTold n id h) s). clearbody s1. destruct (p_client s1); [|apply keeps_emit; now apply HP]. destruct (needs_answer op').
    - destruct (send_multi _ _ _ _) as ((m & l) & [|e|e]); (split; [|auto]); eexists [_]; (split; [reflexivity|constructor; [now apply HP|constructor]]).
    - destruct (send_none _ _ _) as (m & [|e|e]); (split; [|auto]); eexists [_]; (split; [reflexivity|constructor; [now apply HP|constructor]]).
  Qed.
  Lemma keeps_forward id op cs s : keeps s (forward id op cs s).
  Proof.
    unfold ProxyModel.forward. destruct (p_client s); [|now apply keeps_same]. set (s1 := emit (PAsk _ _ _ _) _).
    assert (K : keeps s s1) by (unfold s1; split; [eexists [_]; (split; [reflexivity|constructor; [now apply HP|constructor]])|auto]).
    clearbody s1. destruct (before op cs) as [op' cs'|vs| |]; (eapply keeps_trans; [exact K|]); try apply keeps_told. now apply keeps_same.
  Qed.
  Lemma keeps_told_later n h s : keeps s (told_later n h s).
  Proof. destruct (told_later_cases n h s) as [-> | (id & _ & _ & ->)]; [apply keeps_refl|]. eapply keeps_trans; [|apply keeps_told]. now apply keeps_same. Qed.
  Lemma keeps_backlog l : forall s, keeps s (backlog l s).
  Proof.
    induction l as [|((id & op) & cs) l IH]; intros s; [apply keeps_refl|]. cbn [ProxyModel.backlog]. eapply keeps_trans; [|apply IH]. eapply keeps_trans; [|apply keeps_forward]. now apply keeps_same.
  Qed.
  Lemma keeps_got b v w s : keeps s (got_response after b v w s).
  Proof.
    unfold got_response. set (s1 := emit (PArrived b (p_calls s) v) (with_calls (S (p_calls s)) s)).
    assert (K : keeps s s1) by (eapply keeps_trans; [|(apply keeps_emit; now apply HP)]; now apply keeps_same). clearbody s1.
    destruct (after v (ps_op w) (ps_cs w)) as [r| |].
    - eapply keeps_trans; [exact K|]. eapply keeps_trans; [apply (keeps_emit (PHook (p_calls s) (Some r))); now apply HP|]. destruct (find _ _) as [(? & q)|]; [apply keeps_run_seq|apply keeps_refl].
    - eapply keeps_trans; [exact K|]. destruct (find _ _) as [(? & q)|]; [apply keeps_run_seq|apply keeps_refl].
    - eapply keeps_trans; [exact K|]. eapply keeps_trans; [apply (keeps_emit (PHook (p_calls s) None)); now apply HP|]. destruct (find _ _) as [(? & q)|]; [apply keeps_run_seq|apply keeps_refl].
  Qed.
  Lemma keeps_response msg s : keeps s (response after msg s).
  Proof.
    unfold response. destruct msg as [| | | | | | | | |tag id v cs| | | | | | | | | | | |]; try ((apply keeps_emit; now apply HP)).
    destruct (is_response v); [|(apply keeps_emit; now apply HP)]. destruct id as [|i|bs]; try ((apply keeps_emit; now apply HP)). destruct (i =? 0); [apply keeps_refl|].
    destruct (find _ _) as [(j & w)|]; [|(apply keeps_emit; now apply HP)]. destruct (last_response v); [|apply keeps_got]. eapply keeps_trans; [apply keeps_got|]. now apply keeps_same.
  Qed.
  Lemma keeps_later n r s : keeps s (later n r s).
  Proof. unfold later. destruct (find _ _) as [(b & q)|]; [|apply keeps_refl]. eapply keeps_trans; [apply (keeps_emit (PHook n r)); now apply HP|apply keeps_run_seq]. Qed.

End Keeps.
Lemma relaying_neutral e : relaying e -> neutral e. Proof. destruct e; intros []; exact I. Qed.

Section Tls.
  Variable before : obj -> ctrls -> hook.
  Variable after : obj -> obj -> ctrls -> ahook.
  Variable use_tls options : bool.
  Notation step := (step before after use_tls options).
  Notation run := (run before after use_tls options).
  Notation forward := (forward before).
  Notation backlog := (backlog before).
  Notation keeps := (keeps neutral).
  Hint Resolve relaying_neutral : core.

  Definition TI (s : pst) : Prop := tls_ok options false (p_trace s) /\ p_tls s = existsb is_tls (p_trace s).
  Lemma TI_keeps s s' : ext neutral s s' -> p_tls s' = p_tls s -> TI s -> TI s'.
  Proof.
    intros (o & E & N) T (H & B). split; [rewrite E; eapply tls_ok_app; [reflexivity|exact H|now apply neutral_ok]|]. rewrite T, B, E, existsb_app, (neutral_tls o N). now rewrite orb_false_r.
  Qed.
  Lemma TI_start id op cs s : is_starttls op = true -> p_conn s = Some true -> TI s -> TI (start_tls options id (emit (PGot id op cs) s)).
  Proof.
    intros S C (H & B). set (c := tls_code options (p_tls s)).
    assert (RP : forall v, (exists w, toWire (OMessage (class_tag KMessage) id v None) = Ok w /\ reply id None (Some v) (emit (PGot id op cs) s) = (emit (PReply id v None) (emit (PGot id op cs) s), Ok tt)) \/
      exists e, ~ writable id v /\ reply id None (Some v) (emit (PGot id op cs) s) = (emit (PGot id op cs) s, Err e)).
    { intros v. unfold reply. cbn [p_conn emit]. rewrite C. destruct (toWire (OMessage (class_tag KMessage) id v None)) as [w|e] eqn:W; [left; exists w; auto|right]. exists e. split; [|reflexivity]. intros (w & X). assert (Y : Ok w = Err e) by (rewrite <- W; symmetry; exact X). discriminate Y. }
    assert (G : forall u b, tls_ok options (p_tls s) u -> b = p_tls s || existsb is_tls u -> tls_ok options false (p_trace s ++ u) /\ b = existsb is_tls (p_trace s ++ u)).
    { intros u b U ->. split; [eapply tls_ok_app; [reflexivity|exact H|]; cbn [orb]; now rewrite <- B|now rewrite existsb_app, B]. }
    unfold start_tls, TI. cbn [emit p_tls]. unfold reply_log. destruct options eqn:O; [destruct (p_tls s) eqn:T|].
    - destruct (RP (ext_obj 1 (VBytes []) VNone)) as [(w & W & ->)|(e & W & ->)]; cbn [emit p_trace p_tls]; rewrite <- app_assoc; (apply G; [cbn [app tls_ok]; rewrite S; cbn; auto|cbn; now rewrite ?orb_false_r]).
    - destruct (RP (ext_obj 0 (VBytes []) VNone)) as [(w & W & ->)|(e & W & ->)]; cbn [emit with_tls p_trace p_tls]; rewrite <- !app_assoc; (apply G; [cbn [app tls_ok]; rewrite S; cbn; auto|cbn; now rewrite ?orb_false_r]).
    - destruct (RP (ext_obj 52 (VBytes []) VNone)) as [(w & W & ->)|(e & W & ->)]; cbn [emit p_trace p_tls]; rewrite <- app_assoc; (apply G; [cbn [app tls_ok]; rewrite S; cbn; auto|cbn; now rewrite ?orb_false_r]).
  Qed.
  Lemma TI_handle msg s : p_conn s = Some true -> TI s -> TI (handle before options msg s).
  Proof.
    intros C H. assert (KP : forall s', keeps s s' -> TI s') by (intros s' (A & B & _); eapply TI_keeps; eauto).
    unfold handle. destruct msg as [| | | | | | | | |tag id op cs| | | | | | | | | | | |]; try (apply KP; now apply keeps_emit).
    destruct (kind_of op); [|apply KP; now apply keeps_emit].
    assert (GO : TI (match op with
                | OExtReq _ (VBytes name) _ => if bytes_eqb name starttls_oid then start_tls options id (emit (PGot id op cs) s) else forward id op cs (emit (PGot id op cs) s)
                | ONull KUnbind _ => forward id op cs (with_unbound true (emit (PGot id op cs) s))
                | _ => forward id op cs (emit (PGot id op cs) s)
                end)).
    { assert (F : is_starttls op = false -> keeps s (forward id op cs (emit (PGot id op cs) s))) by (intros E; eapply keeps_trans; [apply (keeps_emit neutral (PGot id op cs)); exact E|apply keeps_forward; auto]).
      destruct op as [| | |k tg| | | | | | | | | | | | | | | | | |tg nm v]; try (apply KP; apply F; reflexivity).
      - destruct k; try (apply KP; apply F; reflexivity). apply KP. eapply keeps_trans; [apply (keeps_emit neutral (PGot id (ONull KUnbind tg) cs)); reflexivity|]. eapply keeps_trans; [|apply keeps_forward; auto]. now apply keeps_same.
      - destruct nm as [|z|nm]; try (apply KP; apply F; reflexivity). destruct (bytes_eqb nm starttls_oid) eqn:E; [now apply TI_start|apply KP; apply F; exact E]. }
    destruct id as [|z|bs]; try exact GO. destruct z; [exact H|exact GO|exact GO].
  Qed.
  Lemma TI_step s e : TI s -> TI (step s e).
  Proof.
    intros H. assert (KP : forall s', keeps s s' -> TI s') by (intros s' (A & B & _); eapply TI_keeps; eauto).
    assert (SM : forall s1 s', p_trace s1 = p_trace s -> p_tls s1 = p_tls s -> keeps s1 s' -> TI s').
    { intros s1 s' A B ((o & E & N) & D & _). eapply TI_keeps; [exists o; split; [rewrite E, A; reflexivity|exact N]|congruence|exact H]. }
    destruct e as [| | |ok|msg|msg| | |n h|n r|n]; cbn [ProxyModel.step]; try exact H.
    - destruct (p_phase s); try exact H.
    - destruct (p_phase s); try exact H. destruct use_tls; [exact H|]. cbn [with_phase with_link p_conn].
      destruct (p_conn s) as [[]|]; [eapply SM; [| |apply keeps_backlog; auto]; reflexivity| |]; (apply (TI_keeps s); [|reflexivity|exact H]; exists [PCloseServer]; split; [reflexivity|constructor; [exact I|constructor]]).
    - destruct (p_phase s); try exact H. eapply SM; [| |apply keeps_refuse; [auto|exact I]]; reflexivity.
    - destruct (p_phase s); try exact H. destruct ok; [eapply SM; [| |apply keeps_backlog; auto]; reflexivity|eapply SM; [| |apply keeps_refuse; [auto|exact I]]; reflexivity].
    - destruct (p_conn s) as [[]|] eqn:C; try exact H. now apply TI_handle.
    - destruct (l_up (p_link s)); [|exact H]. apply KP, keeps_response; auto.
    - destruct (p_conn s) as [[]|]; try exact H. destruct (p_client s && l_up (p_link s)).
      + destruct (p_unbound s); (apply (TI_keeps s); [|reflexivity|exact H]).
        * exists [PCloseServer; PLost]. cbn. rewrite <- app_assoc. split; [reflexivity|repeat (constructor; [exact I|]); constructor].
        * exists [PUnbind; PCloseServer; PLost]. cbn. rewrite <- !app_assoc. split; [reflexivity|repeat (constructor; [exact I|]); constructor].
      + apply (TI_keeps s); [|reflexivity|exact H]. exists [PLost]. split; [reflexivity|constructor; [exact I|constructor]].
    - apply KP, keeps_told_later; auto.
    - apply KP, keeps_later; auto.
  Qed.
  Lemma run_TI next es : TI (run next es).
  Proof.
    unfold ProxyModel.run. assert (H : TI (p0 next)) by (split; reflexivity || exact I). revert H. generalize (p0 next).
    induction es as [|e es IH]; intros s H; [exact H|]. cbn [fold_left]. apply IH. now apply TI_step.
  Qed.
End Tls.

(** ** A server that cannot be reached *)
Definition noclose (e : pev) : Prop := e <> PCloseClient.
Lemma relaying_noclose e : relaying e -> noclose e. Proof. destruct e; intros []; discriminate. Qed.
Definition closes_ok (t : list pev) : Prop := forall l r, t = l ++ PCloseClient :: r ->
  exists l0, l = l0 ++ map unavailable (binds (received l0)) /\ forwarded l0 = [] /\ Forall noclose l /\ Forall noclose r.

Lemma split_before {A} (x : A) o : ~ In x o -> forall t l r, t ++ o = l ++ x :: r -> exists r', t = l ++ x :: r' /\ r = r' ++ o.
Proof.
  intros N. induction t as [|y t IH]; intros l r E.
  - destruct N. cbn in E. rewrite E. apply in_or_app. right. now left.
  - destruct l as [|z l]; cbn [app] in E; injection E as -> E; [exists t; auto|]. destruct (IH l r E) as (r' & -> & ->). exists r'. auto.
Qed.
Lemma noclose_out t : Forall noclose t -> ~ In PCloseClient t.
Proof. rewrite Forall_forall. intros H I. now destruct (H _ I). Qed.
Lemma closes_more t o : Forall noclose o -> closes_ok t -> closes_ok (t ++ o).
Proof.
  intros N H l r E. destruct (split_before PCloseClient o (noclose_out o N) t l r E) as (r' & E' & ->). destruct (H l r' E') as (l0 & A & B & C & D). exists l0. repeat (split; [assumption|]). apply Forall_app. auto.
Qed.
Lemma closes_none t : Forall noclose t -> closes_ok t.
Proof. intros N l r ->. apply Forall_app in N as (_ & N). inversion N as [|? ? X]. now destruct X. Qed.
Lemma closes_last t m : Forall noclose t -> Forall noclose m -> forwarded t = [] -> m = map unavailable (binds (received t)) -> closes_ok (t ++ m ++ [PCloseClient]).
Proof.
  intros T M F -> l r E. rewrite app_assoc in E. set (w := t ++ _) in *. assert (W : Forall noclose w) by (apply Forall_app; auto).
  assert (X : l = w /\ r = []).
  { clear - W E. revert l E. induction W as [|y w Y _ IH]; intros l E.
    - destruct l as [|z l]; cbn in E; [injection E as <-; auto|]. destruct l; discriminate.
    - destruct l as [|z l]; cbn [app] in E; injection E as E1 E2; [now destruct Y|]. destruct (IH l E2) as (-> & ->). subst. auto. }
  destruct X as (-> & ->). exists t. repeat (split; [assumption || reflexivity|]). constructor.
Qed.
Lemma noclose_unavailable l : Forall noclose (map unavailable l).
Proof. induction l; constructor; [discriminate|assumption]. Qed.

Lemma refuse_trace l : forall s, p_trace (refuse l s) = p_trace s ++ map unavailable (binds l) ++ [PCloseClient] \/ exists k x, p_trace (refuse l s) = p_trace s ++ map unavailable (firstn k (binds l)) ++ [PRaised x] /\
  (p_conn s = Some true -> exists id, In id (binds l) /\ ~ writable id bind_unavailable).
Proof.
  induction l as [|((id & op) & cs) l IH]; intros s; cbn [refuse]; [left; reflexivity|].
  assert (SK : binds ((id, op, cs) :: l) = binds l -> p_trace (refuse l (with_queued l s)) = p_trace s ++ map unavailable (binds ((id, op, cs) :: l)) ++ [PCloseClient] \/
    exists k x, p_trace (refuse l (with_queued l s)) = p_trace s ++ map unavailable (firstn k (binds ((id, op, cs) :: l))) ++ [PRaised x] /\
    (p_conn s = Some true -> exists i, In i (binds ((id, op, cs) :: l)) /\ ~ writable i bind_unavailable)) by (intros ->; exact (IH (with_queued l s))).
  destruct op; try (apply SK; reflexivity).
  change (binds ((id, OBindReq tag version dn auth, cs) :: l)) with (id :: binds l). change (res_obj KBindResp 52 (VBytes []) (VBytes [])) with bind_unavailable. unfold reply. cbn [with_queued p_conn].
  assert (CL : forall x, ~ (p_conn s = Some true) -> p_trace (emit (PRaised x) (with_queued l s)) = p_trace s ++ map unavailable (id :: binds l) ++ [PCloseClient] \/
    exists k x0, p_trace (emit (PRaised x) (with_queued l s)) = p_trace s ++ map unavailable (firstn k (id :: binds l)) ++ [PRaised x0] /\ (p_conn s = Some true -> exists i, In i (id :: binds l) /\ ~ writable i bind_unavailable)).
  { intros x N. right. exists 0%nat, x. split; [reflexivity|]. intros C. now destruct N. }
  destruct (p_conn s) as [[]|] eqn:C; [|apply CL; discriminate|apply CL; discriminate].
  destruct (toWire (OMessage (class_tag KMessage) id bind_unavailable None)) as [w|x] eqn:W.
  - destruct (IH (emit (PReply id bind_unavailable None) (with_queued l s))) as [E|(k & x & E & H)]; cbn [emit with_queued p_trace p_conn] in E.
    + left. rewrite E, <- app_assoc. reflexivity.
    + right. exists (S k), x. rewrite E, <- app_assoc. split; [reflexivity|]. intros _. cbn [emit with_queued p_conn] in H. destruct (H C) as (i & I & N). exists i. split; [now right|exact N].
  - right. exists 0%nat, x. split; [reflexivity|]. intros _. exists id. split; [now left|]. intros (w & X). assert (Y : Ok w = Err x) by (rewrite <- W; symmetry; exact X). discriminate Y.
Qed.

Section Unreachable.
  Variable before : obj -> ctrls -> hook.
  Variable after : obj -> obj -> ctrls -> ahook.
  Variable use_tls options : bool.
  Notation step := (step before after use_tls options).
  Notation run := (run before after use_tls options).
  Notation F s := (forwarded (p_trace s)).
  Notation R s := (received (p_trace s)).
  Notation keeps := (keeps noclose).
  Hint Resolve relaying_noclose : core.

  Lemma told_later_none n h s : p_late s = [] -> told_later n h s = s.
  Proof. intros E. destruct (told_later_cases n h s) as [-> | (id & _ & I & _)]; [reflexivity|]. rewrite E in I. destruct I. Qed.
  Definition early (s : pst) : Prop := p_client s = false /\ p_queued s = R s /\ F s = [] /\ p_late s = [] /\ Forall noclose (p_trace s).
  Definition V (s : pst) : Prop := (p_phase s <> PhDone -> early s) /\ closes_ok (p_trace s).
  Lemma V_keeps s s' : V s -> ext noclose s s' -> (p_phase s' <> PhDone -> p_phase s <> PhDone -> early s -> p_client s' = false /\ p_queued s' = R s' /\ F s' = [] /\ p_late s' = []) ->
    (p_phase s' <> PhDone -> p_phase s <> PhDone) -> V s'.
  Proof.
    intros (E & C) (o & T & N) H P. split.
    - intros D. destruct (H D (P D) (E (P D))) as (A & B & G & L). destruct (E (P D)) as (_ & _ & _ & _ & N0). repeat (split; [assumption|]). rewrite T. apply Forall_app. auto.
    - rewrite T. now apply closes_more.
  Qed.
  Lemma refuse_V s : early s -> closes_ok (p_trace (refuse (p_queued s) (with_phase PhDone s))).
  Proof.
    intros (_ & Q & F & _ & N). destruct (refuse_trace (p_queued s) (with_phase PhDone s)) as [->|(k & x & -> & _)]; cbn [with_phase p_trace].
    - apply closes_last; [exact N|apply noclose_unavailable|exact F|now rewrite Q].
    - apply closes_none. apply Forall_app. split; [exact N|]. apply Forall_app. split; [apply noclose_unavailable|constructor; [discriminate|constructor]].
  Qed.
  Lemma keeps_start id s : keeps s (start_tls options id s) \/ ext noclose s (start_tls options id s).
  Proof.
    right. unfold start_tls, reply_log. assert (K : forall c, ext noclose s (fst (reply id None (Some (ext_obj c (VBytes []) VNone)) s))) by (intros c; apply keeps_reply; auto).
    destruct options; [destruct (p_tls s)|].
    - specialize (K 1). destruct (reply _ _ _ _) as (s' & [u|e]); [exact K|]. eapply ext_trans; [exact K|]. apply ext_emit. discriminate.
    - specialize (K 0). destruct (reply _ _ _ _) as (s' & [u|e]); (eapply ext_trans; [exact K|]); [exists [PTls]|exists [PRaised e]]; (split; [reflexivity|constructor; [discriminate|constructor]]).
    - specialize (K 52). destruct (reply _ _ _ _) as (s' & [u|e]); [exact K|]. eapply ext_trans; [exact K|]. apply ext_emit. discriminate.
  Qed.
  Lemma handle_noclose msg s : ext noclose s (handle before options msg s).
  Proof.
    assert (KE : forall e s0, e <> PCloseClient -> ext noclose s0 (emit e s0)) by (intros; now apply ext_emit).
    unfold handle. destruct msg as [| | | | | | | | |tag id op cs| | | | | | | | | | | |]; try (apply KE; discriminate).
    destruct (kind_of op); [|apply KE; discriminate].
    set (body := match op with OExtReq _ _ _ => _ | _ => _ end).
    assert (GO : ext noclose s body).
    { eapply ext_trans; [apply (KE (PGot id op cs)); discriminate|]. unfold body.
      assert (FW : forall s0, ext noclose s0 (forward before id op cs s0)) by (intros; apply keeps_forward; auto).
      destruct op as [| | |k tg| | | | | | | | | | | | | | | | | |tg nm v]; try apply FW.
      - destruct k; try apply FW. exact (FW (with_unbound true (emit (PGot id (ONull KUnbind tg) cs) s))).
      - destruct nm as [|z|nm]; try apply FW. destruct (bytes_eqb nm starttls_oid); [|apply FW]. destruct (keeps_start id (emit (PGot id (OExtReq tg (VBytes nm) v) cs) s)) as [(K & _)|K]; exact K. }
    clearbody body. destruct id as [|z|bs]; try exact GO. destruct z; [apply ext_refl|exact GO|exact GO].
  Qed.
  Lemma handle_early msg s : early s -> let s' := handle before options msg s in p_client s' = false /\ p_queued s' = R s' /\ F s' = [] /\ p_late s' = [] /\ p_phase s' = p_phase s /\ p_conn s' = p_conn s.
  Proof.
    intros (C & Q & F0 & L0 & _). cbn zeta.
    assert (SM : forall s', same s s' -> p_client s' = false /\ p_queued s' = R s' /\ F s' = [] /\ p_late s' = [] /\ p_phase s' = p_phase s /\ p_conn s' = p_conn s).
    { intros s' [B1 B2 B3 B4 B5 B6 B7 B8 B9]. assert (D := f_equal (fun h => snd (fst (fst h))) B9). cbn [hist fst snd] in D. rewrite B1, B2, B3, B5, B7, B8, D. repeat (split; [assumption|]). auto. }
    unfold handle. destruct msg as [| | | | | | | | |tag id op cs| | | | | | | | | | | |]; try (apply SM, same_emit; exact I).
    destruct (kind_of op); [|apply SM, same_emit; exact I].
    set (body := match op with OExtReq _ _ _ => _ | _ => _ end).
    assert (GO : p_client body = false /\ p_queued body = R body /\ F body = [] /\ p_late body = [] /\ p_phase body = p_phase s /\ p_conn body = p_conn s).
    { assert (FW : forall s0, p_client s0 = false -> p_queued s0 = p_queued s -> p_trace s0 = p_trace s ++ [PGot id op cs] -> p_late s0 = [] -> p_phase s0 = p_phase s -> p_conn s0 = p_conn s -> is_starttls op = false ->
        let s' := forward before id op cs s0 in p_client s' = false /\ p_queued s' = R s' /\ F s' = [] /\ p_late s' = [] /\ p_phase s' = p_phase s /\ p_conn s' = p_conn s).
      { intros s0 C0 Q0 T0 L1 P0 N0 S0. cbn zeta. unfold ProxyModel.forward. rewrite C0. cbn [with_queued p_client p_queued p_trace p_late p_phase p_conn]. rewrite T0, received_app, forwarded_app, Q0, Q, F0. cbn. rewrite S0. auto 9. }
      unfold body. destruct op as [| | |k tg| | | | | | | | | | | | | | | | | |tg nm v]; try (apply FW; auto 9; fail).
      - destruct k; apply FW; auto 9.
      - destruct nm as [|z|nm]; try (apply FW; auto 9; fail). destruct (bytes_eqb nm starttls_oid) eqn:E; [|apply FW; auto 9].
        destruct (same_start_tls options id (emit (PGot id (OExtReq tg (VBytes nm) v) cs) s)) as [B1 B2 B3 B4 B5 B6 B7 B8 B9]. assert (D := f_equal (fun h => snd (fst (fst h))) B9). cbn [hist fst snd] in D. rewrite B1, B2, B3, B5, B7, B8, D. cbn [emit p_client p_queued p_trace p_late p_phase p_conn].
        rewrite received_app, forwarded_app, F0, C, Q. assert (ST : is_starttls (OExtReq tg (VBytes nm) v) = true) by exact E. unfold received at 3. cbn [flat_map]. rewrite ST. cbn. rewrite !app_nil_r. repeat (split; [assumption || reflexivity|]). auto. }
    clearbody body. destruct id as [|z|bs]; try exact GO. destruct z; [apply SM, same_refl|exact GO|exact GO].
  Qed.
  Lemma V_step s e : V s -> V (step s e).
  Proof.
    intros H. destruct e as [| | |ok|msg|msg| | |n h|n r|n]; cbn [ProxyModel.step]; try exact H.
    - destruct (p_phase s) eqn:P; try exact H. destruct H as (E & C). split; [|exact C]. intros _. apply E. congruence.
    - destruct (p_phase s) eqn:P; try exact H. destruct use_tls.
      + destruct H as (E & C). split; [|exact C]. intros _. apply E. congruence.
      + cbn [with_phase with_link p_conn]. destruct (p_conn s) as [[]|].
        * set (s1 := with_client true _). change (V (backlog before (p_queued s) s1)). destruct (keeps_backlog noclose relaying_noclose before (p_queued s) s1) as ((o & T & N) & _ & _ & PB). split; [|rewrite T; apply closes_more; [exact N|exact (proj2 H)]].
          assert (Y : p_phase (backlog before (p_queued s) s1) = PhDone) by exact PB.
          intros D. rewrite Y in D. now destruct D.
        * split; [|apply (closes_more _ [PCloseServer]); [constructor; [discriminate|constructor]|exact (proj2 H)]]. intros D. now destruct D.
        * split; [|apply (closes_more _ [PCloseServer]); [constructor; [discriminate|constructor]|exact (proj2 H)]]. intros D. now destruct D.
    - destruct (p_phase s) eqn:P; try exact H. split; [|apply refuse_V, H; congruence]. destruct (refuse_same (p_queued s) (with_phase PhDone s)) as (_ & -> & _). intros D. now destruct D.
    - destruct (p_phase s) eqn:P; try exact H. destruct ok.
      + set (s1 := with_client true _). change (V (backlog before (p_queued s) s1)). destruct (keeps_backlog noclose relaying_noclose before (p_queued s) s1) as ((o & T & N) & _ & _ & PB). split; [|rewrite T; apply closes_more; [exact N|exact (proj2 H)]].
        assert (Y : p_phase (backlog before (p_queued s) s1) = PhDone) by exact PB.
        intros D. rewrite Y in D. now destruct D.
      + change (V (refuse (p_queued s) (with_phase PhDone s))). split; [|apply refuse_V, H; congruence]. destruct (refuse_same (p_queued s) (with_phase PhDone s)) as (_ & -> & _). intros D. now destruct D.
    - destruct (p_conn s) as [[]|] eqn:C; try exact H. split; [|destruct (handle_noclose msg s) as (o & -> & N); apply closes_more; [exact N|exact (proj2 H)]].
      intros D. destruct (p_phase s) eqn:P.
      4: { exfalso. apply D. clear - P. unfold handle. destruct msg as [| | | | | | | | |tag id op cs| | | | | | | | | | | |]; try exact P. destruct (kind_of op); [|exact P].
        assert (FW : forall s0, p_phase s0 = PhDone -> p_phase (forward before id op cs s0) = PhDone) by (intros s0 X; rewrite <- X; apply (keeps_forward (fun _ => True) (fun _ _ => I))).
        set (body := match op with OExtReq _ _ _ => _ | _ => _ end). assert (GO : p_phase body = PhDone).
        { unfold body. destruct op as [| | |k tg| | | | | | | | | | | | | | | | | |tg nm v]; try (apply FW; exact P).
          - destruct k; apply FW; exact P.
          - destruct nm as [|z|nm]; try (apply FW; exact P). destruct (bytes_eqb nm starttls_oid); [|apply FW; exact P]. destruct (same_start_tls options id (emit (PGot id (OExtReq tg (VBytes nm) v) cs) s)) as [_ B2 _ _ _ _ _ _ _]. now rewrite B2. }
        clearbody body. destruct id as [|z|bs]; try exact GO. destruct z; [exact P|exact GO|exact GO]. }
      1-3: (assert (E : early s) by (apply H; congruence); destruct (handle_early msg s E) as (A1 & A2 & A3 & A4 & _); split; [exact A1|]; split; [exact A2|]; split; [exact A3|]; split; [exact A4|];
        destruct (handle_noclose msg s) as (o & -> & N); apply Forall_app; split; [apply E|exact N]).
    - destruct (l_up (p_link s)); [|exact H]. destruct (same_response before after msg s) as (A1 & A2 & A3 & A4 & A5 & A6 & A7 & A8 & A9 & A10). cbn zeta in *. assert (DL := f_equal (fun h => snd (fst (fst h))) A10). cbn [hist fst snd] in DL.
      apply (V_keeps s); [exact H|apply keeps_response; auto| |now rewrite A2]. intros _ _ (B1 & B2 & B3 & B4 & _). rewrite A3, A4, A6, A7, DL. auto.
    - destruct (p_conn s) as [[]|] eqn:C; try exact H. cbn zeta. apply (V_keeps s); [exact H| | |].
      + destruct (p_client s && l_up (p_link s)); [destruct (p_unbound s)|].
        * exists [PCloseServer; PLost]. cbn. rewrite <- app_assoc. split; [reflexivity|repeat (constructor; [discriminate|]); constructor].
        * exists [PUnbind; PCloseServer; PLost]. cbn. rewrite <- !app_assoc. split; [reflexivity|repeat (constructor; [discriminate|]); constructor].
        * exists [PLost]. split; [reflexivity|constructor; [discriminate|constructor]].
      + intros _ _ (B1 & B2 & B3 & B4 & _). rewrite B1. cbn [andb emit with_conn with_client p_client p_queued p_trace p_late]. rewrite received_app, forwarded_app, B2, B3. cbn. rewrite app_nil_r. auto.
      + destruct (p_client s && l_up (p_link s)); [destruct (p_unbound s)|]; cbn; auto.
    - destruct (keeps_told_later noclose relaying_noclose n h s) as (A1 & _ & _ & A2). apply (V_keeps s); [exact H|exact A1| |now rewrite A2]. intros _ _ (B1 & B2 & B3 & B4 & _).
      rewrite (told_later_none n h s B4). auto.
    - pose proof (same_later n r s) as [A1 A2 A3 A4 A5 A6 A7 A8 A9]. assert (DL := f_equal (fun h => snd (fst (fst h))) A9). cbn [hist fst snd] in DL. apply (V_keeps s); [exact H|apply keeps_later; auto| |now rewrite A2]. intros _ _ (B1 & B2 & B3 & B4 & _). rewrite A3, A5, A7, A8, DL. auto.
  Qed.
  Lemma run_V next es : V (run next es).
  Proof.
    unfold ProxyModel.run. assert (H : V (p0 next)).
    { split; [intros _; repeat split; constructor|apply closes_none; constructor]. }
    revert H. generalize (p0 next). induction es as [|e es IH]; intros s H; [exact H|]. cbn [fold_left]. apply IH. now apply V_step.
  Qed.

  (** While the connection is being made *)
  Lemma meanwhile_step s e : V s -> p_phase s = PhConnecting \/ p_phase s = PhTls -> p_conn s = Some true -> meanwhile e -> p_phase (step s e) = p_phase s /\ p_conn (step s e) = Some true.
  Proof.
    intros H P C M. destruct e as [| | |ok|msg|msg| | |n h|n r|n]; try contradiction; cbn [ProxyModel.step].
    - destruct P as [P|P]; rewrite P; auto.
    - rewrite C. assert (E : early s) by (apply H; destruct P; congruence). destruct (handle_early msg s E) as (_ & _ & _ & _ & A & B). split; congruence.
    - destruct (l_up (p_link s)); [|auto]. destruct (same_response before after msg s) as (A1 & A2 & _). cbn zeta in *. split; congruence.
    - assert (E : early s) by (apply H; destruct P; congruence). destruct E as (_ & _ & _ & E & _). rewrite (told_later_none n h s E). auto.
    - destruct (same_later n r s) as [A1 A2 _ _ _ _ _ _ _]. split; congruence.
    - auto.
  Qed.
  Lemma meanwhile_run es : forall s, V s -> p_phase s = PhConnecting \/ p_phase s = PhTls -> p_conn s = Some true -> Forall meanwhile es ->
    let s' := fold_left step es s in V s' /\ p_phase s' = p_phase s /\ p_conn s' = Some true.
  Proof.
    induction es as [|e es IH]; intros s H P C M; [auto|]. inversion M as [|? ? M1 M2]. subst. destruct (meanwhile_step s e H P C M1) as (A & B). cbn [fold_left].
    destruct (IH (step s e) (V_step s e H) ltac:(rewrite A; exact P) B M2) as (X & Y & Z). cbn zeta. split; [exact X|]. split; [congruence|exact Z].
  Qed.
  Lemma refuse_all s : early s -> p_conn s = Some true -> (forall id, In id (binds (R s)) -> writable id bind_unavailable) ->
    p_trace (refuse (p_queued s) (with_phase PhDone s)) = p_trace s ++ map unavailable (binds (R s)) ++ [PCloseClient].
  Proof.
    intros (_ & Q & _) C W. rewrite Q. destruct (refuse_trace (R s) (with_phase PhDone s)) as [E|(k & x & _ & X)]; [exact E|]. destruct (X C) as (id & I & N). destruct N. now apply W.
  Qed.
  Lemma connecting next es : Forall meanwhile es -> In VMade es -> let s := run next es in p_phase s = PhConnecting /\ p_conn s = Some true /\ V s.
  Proof.
    intros M I. unfold ProxyModel.run. apply in_split in I as (a & b & ->). rewrite fold_left_app. cbn [fold_left]. apply Forall_app in M as (Ma & M). inversion M as [|? ? _ Mb]. subst.
      assert (A : p_phase (fold_left step a (p0 next)) = PhNew /\ V (fold_left step a (p0 next)) \/ p_phase (fold_left step a (p0 next)) = PhConnecting /\ p_conn (fold_left step a (p0 next)) = Some true /\ V (fold_left step a (p0 next))).
      { clear - Ma. induction a as [|e a IH] using rev_ind; [left; split; [reflexivity|apply (run_V next [])]|]. apply Forall_app in Ma as (M1 & M2). inversion M2 as [|? ? M3 _]. subst. rewrite fold_left_app. cbn [fold_left].
        destruct (IH M1) as [(P & H)|(P & C & H)].
        - destruct e as [| | |ok|msg|msg| | |n h|n r|n]; try contradiction.
          + right. cbn [ProxyModel.step]. rewrite P. split; [reflexivity|]. split; [reflexivity|]. pose proof (V_step _ VMade H) as Y. cbn [ProxyModel.step] in Y. rewrite P in Y. exact Y.
          + left. split; [|now apply V_step]. cbn [ProxyModel.step]. destruct (p_conn _) as [[]|]; try exact P. destruct (handle_early msg _ ltac:(apply H; rewrite P; discriminate)) as (_ & _ & _ & _ & A & _). cbn zeta in A. congruence.
          + left. split; [|now apply V_step]. cbn [ProxyModel.step]. destruct (l_up _); [|exact P]. destruct (same_response before after msg (fold_left step a (p0 next))) as (_ & A & _). cbn zeta in A. congruence.
          + left. split; [|now apply V_step]. cbn [ProxyModel.step]. destruct (keeps_told_later noclose relaying_noclose n h (fold_left step a (p0 next))) as (_ & _ & _ & A). congruence.
          + left. split; [|now apply V_step]. cbn [ProxyModel.step]. destruct (same_later n r (fold_left step a (p0 next))) as [_ A _ _ _ _ _ _ _]. congruence.
          + left. split; [exact P|now apply V_step].
        - right. destruct (meanwhile_step _ e H (or_introl P) C M3) as (A & B). split; [congruence|]. split; [exact B|now apply V_step]. }
      set (s0 := fold_left step a (p0 next)) in *.
      assert (Y : p_phase (step s0 VMade) = PhConnecting /\ p_conn (step s0 VMade) = Some true /\ V (step s0 VMade)).
      { destruct A as [(P & H)|(P & C & H)]; (split; [|split; [|now apply V_step]]); cbn [ProxyModel.step]; rewrite P; auto. }
      destruct Y as (P & C & H). destruct (meanwhile_run b (step s0 VMade) H (or_introl P) C Mb) as (Y1 & Y2 & Y3). cbn zeta in *. split; [congruence|auto].
  Qed.
  Lemma down next es : Forall meanwhile es -> In VMade es -> let s := run next es in (forall id, In id (binds (R s)) -> writable id bind_unavailable) ->
    p_trace (run next (es ++ [VDown])) = p_trace s ++ map unavailable (binds (R s)) ++ [PCloseClient].
  Proof.
    intros M I s W. destruct (connecting next es M I) as (P & C & H). fold s in P, C, H. unfold ProxyModel.run. rewrite fold_left_app. cbn [fold_left]. fold (run next es). fold s. cbn [ProxyModel.step]. rewrite P.
    apply refuse_all; [apply H; congruence|exact C|exact W].
  Qed.
  Lemma tls_down next es es' : use_tls = true -> Forall meanwhile es -> In VMade es -> Forall meanwhile es' -> let s := run next (es ++ VUp :: es') in (forall id, In id (binds (R s)) -> writable id bind_unavailable) ->
    p_trace (run next ((es ++ VUp :: es') ++ [VTls false])) = p_trace s ++ map unavailable (binds (R s)) ++ [PCloseClient].
  Proof.
    intros U M I M' s W. destruct (connecting next es M I) as (P & C & H). 
    assert (X : p_phase s = PhTls /\ p_conn s = Some true /\ V s).
    { unfold s, ProxyModel.run. rewrite fold_left_app. cbn [fold_left]. fold (run next es). pose proof (V_step (run next es) VUp H) as Y. assert (PH : p_phase (step (run next es) VUp) = PhTls /\ p_conn (step (run next es) VUp) = Some true) by (clear - P C U; revert P C; generalize (run next es); intros s1 P C; cbn [ProxyModel.step]; rewrite P, U; split; [reflexivity|exact C]).
      destruct PH as (PH & PC). destruct (meanwhile_run es' _ Y (or_intror PH) PC M') as (A & B & D). cbn zeta in *. split; [congruence|auto]. }
    clear P C H. destruct X as (P & C & H). unfold ProxyModel.run. rewrite fold_left_app. cbn [fold_left]. fold (run next (es ++ VUp :: es')). fold s. cbn [ProxyModel.step]. rewrite P.
    apply (refuse_all s); [apply H; congruence|exact C|exact W].
  Qed.
End Unreachable.
