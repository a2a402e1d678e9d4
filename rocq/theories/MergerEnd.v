(** The merging server: what happens to the connections to the backends when the client goes (C84). *)
From Verif Require Import Base BaseFacts BerModel LdapModel ServerModel ClientModel ProxyModel ProxySpec SimpleProxyModel SimpleProxyEnd MergerModel CloseSpec.

Definition ups (s : mst) (j : nat) := l_up (m_links s j).
(** What may be added to the trace by anything but the end of the connection *)
Definition mmild (cl : list nat) (all : bool) (e : mev) : Prop :=
  match e with
  | MGone | MUnbind _ | MCloseServer _ | MGot _ _ => False
  | MForward j _ _ _ => In j cl /\ all = true
  | _ => True
  end.
Definition mrel (s s' : mst) : Prop :=
  (forall j, ups s' j = ups s j) /\ m_clients s' = m_clients s /\ m_conn s' = m_conn s /\ m_unbound s' = m_unbound s /\ m_all s' = m_all s /\
  exists t, m_trace s' = m_trace s ++ t /\ Forall (mmild (m_clients s) (m_all s)) t.
Lemma mrel_refl s : mrel s s.
Proof. repeat (split; [reflexivity|]). exists []. split; [now rewrite app_nil_r|constructor]. Qed.
Lemma mrel_trans s1 s2 s3 : mrel s1 s2 -> mrel s2 s3 -> mrel s1 s3.
Proof.
  intros (U & C & K & B & A & t & E & F) (U' & C' & K' & B' & A' & t' & E' & F').
  split; [intros j; now rewrite U'|]. do 4 (split; [congruence|]). exists (t ++ t'). split; [rewrite E', E; now rewrite app_assoc|]. apply Forall_app. split; [exact F|]. now rewrite <- C, <- A.
Qed.
Lemma mrel_emit e s : mmild (m_clients s) (m_all s) e -> mrel s (memit e s).
Proof. intros M. repeat (split; [reflexivity|]). exists [e]. split; [reflexivity|]. now constructor. Qed.
Lemma mrel_link j l s : l_up l = ups s j -> mrel s (mw_link j l s).
Proof.
  intros E. split; [intros k; unfold ups; cbn; destruct (Nat.eqb_spec k j) as [->|]; [exact E|reflexivity]|]. repeat (split; [reflexivity|]). exists []. split; [now rewrite app_nil_r|constructor].
Qed.
Lemma mrel_one j id op s : In j (m_clients s) -> m_all s = true -> mrel s (fst (queue_one j id op s)).
Proof.
  intros I A. unfold queue_one. destruct (needs_answer op).
  - assert (L : forall n l r, send_multi op id (m_next s) (m_links s j) = (n, l, r) -> l_up l = l_up (m_links s j)).
    { intros n l r. unfold send_multi. destruct (l_up (m_links s j)) eqn:U; [|intros [= <- <- <-]; exact U]. destruct (wire_has _ _); [intros [= <- <- <-]; exact U|].
      destruct (negb _); [intros [= <- <- <-]; exact U|]. intros [= <- <- <-]. reflexivity. }
    destruct (send_multi op id (m_next s) (m_links s j)) as ((n, l), r) eqn:E. specialize (L _ _ _ eq_refl).
    assert (R : mrel s (mw_link j l (mw_next n s))) by (apply (mrel_link j l (mw_next n s)); exact L).
    destruct r; cbn [fst]; try exact R. eapply mrel_trans; [exact R|]. apply mrel_emit. now split.
  - destruct (send_none op (m_next s) (m_links s j)) as (n, [|e|e]); cbn [fst]; try exact (mrel_refl s).
    eapply mrel_trans; [exact (mrel_refl s : mrel s (mw_next n s))|]. apply mrel_emit. now split.
Qed.
Lemma mrel_all js id op : forall s, (forall j, In j js -> In j (m_clients s)) -> m_all s = true -> mrel s (queue_all js id op s).
Proof.
  induction js as [|j js IH]; intros s I A; [apply mrel_refl|]. cbn [queue_all]. pose proof (mrel_one j id op s (I j (or_introl eq_refl)) A) as R.
  destruct (queue_one j id op s) as (s' & [u|e]); cbn [fst] in R.
  - eapply mrel_trans; [exact R|]. destruct R as (_ & C & _ & _ & A' & _). apply IH; [|congruence]. intros k K. rewrite C. apply I. now right.
  - eapply mrel_trans; [exact R|]. apply mrel_emit. exact Logic.I.
Qed.
Lemma mrel_when id op s : mrel s (m_when id op s).
Proof. unfold m_when. destruct (m_all s) eqn:A; [now apply mrel_all|exact (mrel_refl s)]. Qed.
Lemma mrel_release l : forall s, m_all s = true -> mrel s (m_release l s).
Proof.
  induction l as [|(id & op) r IH]; intros s A; [apply mrel_refl|]. cbn [m_release]. assert (R : mrel s (queue_all (m_clients s) id op (mw_waiting r s))).
  { eapply mrel_trans; [exact (mrel_refl s : mrel s (mw_waiting r s))|]. apply mrel_all; auto. }
  eapply mrel_trans; [exact R|]. apply IH. destruct R as (_ & _ & _ & _ & A' & _). congruence.
Qed.
Lemma mrel_base id v s : mrel s (fst (base_queue id v s)).
Proof. unfold base_queue. destruct (m_conn s) as [[]|]; try apply mrel_refl. destruct (toWire _); [|apply mrel_refl]. apply mrel_emit. exact I. Qed.
Lemma mrel_queue id v s : mrel s (fst (m_queue id v s)).
Proof.
  unfold m_queue. destruct (last_response v); [|apply mrel_base]. match goal with |- context [if q_full ?q then _ else _] => destruct (q_full q) end; [|exact (mrel_refl s)].
  eapply mrel_trans; [exact (mrel_refl s : mrel s (mw_map (map_del id (m_map s)) s))|apply mrel_base].
Qed.
Lemma mrel_response j msg s : mrel s (m_response j msg s).
Proof.
  unfold m_response. destruct msg; try (apply mrel_emit; exact I). destruct (is_response msg); [|apply mrel_emit; exact I]. destruct id as [|i|]; try (apply mrel_emit; exact I).
  destruct (i =? 0); [apply mrel_refl|]. destruct (find _ _) as [(b & rid)|]; [|apply mrel_emit; exact I].
  pose proof (mrel_queue rid msg (memit (MArrived j i rid msg) s)) as R. destruct (m_queue rid msg (memit (MArrived j i rid msg) s)) as (s' & [u|e]); cbn [fst] in R;
    (assert (R1 : mrel s s') by (eapply mrel_trans; [apply (mrel_emit (MArrived j i rid msg)); exact I|exact R])).
  - destruct (last_response msg); [|exact R1]. eapply mrel_trans; [exact R1|]. now apply mrel_link.
  - eapply mrel_trans; [exact R1|]. apply mrel_emit. exact I.
Qed.

Definition munbound (s : mst) : Prop := exists id op, In (MGot id op) (m_trace s) /\ is_unbind op.
Record mended (s : mst) : Prop := {
  me_open : m_conn s <> Some false -> ~ In MGone (m_trace s) /\ (forall j, ups s j = true -> In j (m_clients s)) /\ (m_unbound s = true <-> munbound s) /\
    (forall j, ~ In (MUnbind j) (m_trace s)) /\ (forall j, ~ In (MCloseServer j) (m_trace s));
  me_gone : m_conn s = Some false -> m_clients s = [] /\ (forall j, ups s j = true -> In (MCloseServer j) (m_trace s)) /\ In MGone (m_trace s);
  me_quiet : mquiet_after (m_trace s);
  me_unbind : (exists j, In (MUnbind j) (m_trace s)) -> ~ munbound s;
  me_sent : forall j, In (MCloseServer j) (m_trace s) -> In (MUnbind j) (m_trace s) \/ munbound s }.
Lemma split_mgone (t u a b : list mev) : t ++ u = a ++ MGone :: b -> ~ In MGone u -> exists b', t = a ++ MGone :: b' /\ b = b' ++ u.
Proof.
  revert a. induction t as [|x t IH]; intros a E N.
  - exfalso. apply N. cbn in E. rewrite E. apply in_or_app. right. now left.
  - destruct a as [|y a]; cbn in E; [injection E as -> <-; now exists t|]. injection E as -> E. destruct (IH a E N) as (b' & -> & ->). now exists b'.
Qed.
Lemma mended_rel s s' : mrel s s' -> mended s -> mended s'.
Proof.
  intros (U & C & K & B & A & t & TR & F) E. rewrite Forall_forall in F.
  assert (TI : forall e, In e (m_trace s') <-> In e (m_trace s) \/ In e t) by (intros e; rewrite TR; apply in_app_iff).
  assert (G1 : In MGone (m_trace s') <-> In MGone (m_trace s)) by (rewrite TI; split; [intros [X|X]; [exact X|destruct (F _ X)]|tauto]).
  assert (G2 : forall j, In (MUnbind j) (m_trace s') <-> In (MUnbind j) (m_trace s)) by (intros j; rewrite TI; split; [intros [X|X]; [exact X|destruct (F _ X)]|tauto]).
  assert (G3 : forall j, In (MCloseServer j) (m_trace s') <-> In (MCloseServer j) (m_trace s)) by (intros j; rewrite TI; split; [intros [X|X]; [exact X|destruct (F _ X)]|tauto]).
  assert (G4 : munbound s' <-> munbound s).
  { split; intros (id & op & I & J); exists id, op; (split; [|exact J]); rewrite TI in *; [destruct I as [I|I]; [exact I|destruct (F _ I)]|now left]. }
  split.
  - rewrite K, B, C, G1, G4. intros O. destruct (me_open s E O) as (H1 & H2 & H3 & H4 & H5). split; [exact H1|]. split; [intros j; rewrite U; apply H2|]. split; [exact H3|].
    split; intros j; [rewrite G2|rewrite G3]; auto.
  - rewrite K, C, G1. intros O. destruct (me_gone s E O) as (H1 & H2 & H3). split; [exact H1|]. split; [|exact H3]. intros j. rewrite U, G3. apply H2.
  - intros a b Q j n op id I. rewrite TR in Q. destruct (split_mgone _ _ _ _ Q (fun X => F _ X)) as (b' & Q' & ->). apply in_app_or in I as [I|I]; [exact (me_quiet s E a b' Q' j n op id I)|].
    destruct (F _ I) as (X & _). assert (Y : In MGone (m_trace s)) by (rewrite Q'; apply in_or_app; right; now left).
    destruct (m_conn s) as [[]|] eqn:CN; try (apply (proj1 (me_open s E ltac:(rewrite CN; discriminate))); exact Y). destruct (me_gone s E CN) as (H & _). rewrite H in X. destruct X.
  - rewrite G4. intros (j & X). apply (me_unbind s E). exists j. now apply G2.
  - intros j. rewrite G3, G2, G4. apply (me_sent s E).
Qed.

Lemma close_spec js : forall s, let s' := m_close js s in
  (forall j, ups s' j = ups s j) /\ m_unbound s' = m_unbound s /\
  exists t, m_trace s' = m_trace s ++ t /\ Forall (fun e => match e with MUnbind _ => m_unbound s = false | MCloseServer _ => True | _ => False end) t /\
    (forall j, In j js -> ups s j = true -> In (MCloseServer j) t) /\ (forall j, In (MCloseServer j) t -> m_unbound s = true \/ In (MUnbind j) t).
Proof.
  induction js as [|j js IH]; intros s; cbn zeta; cbn [m_close].
  - repeat (split; [reflexivity|]). exists []. split; [now rewrite app_nil_r|]. split; [constructor|]. split; intros j [].
  - match goal with |- context [m_close js ?x] => set (s1 := x) end.
    assert (H : (forall k, ups s1 k = ups s k) /\ m_unbound s1 = m_unbound s /\ exists t, m_trace s1 = m_trace s ++ t /\
      Forall (fun e => match e with MUnbind _ => m_unbound s = false | MCloseServer _ => True | _ => False end) t /\ (ups s j = true -> In (MCloseServer j) t) /\
      (forall k, In (MCloseServer k) t -> m_unbound s = true \/ In (MUnbind k) t)).
    { unfold s1, ups. destruct (l_up (m_links s j)) eqn:UP; [destruct (m_unbound s) eqn:UB|].
      - split; [reflexivity|]. split; [exact UB|]. exists [MCloseServer j]. split; [reflexivity|]. split; [repeat constructor|]. split; [intros _; now left|]. intros k _. now left.
      - split; [reflexivity|]. split; [exact UB|]. exists [MUnbind j; MCloseServer j]. split; [cbn; now rewrite <- app_assoc|]. split; [repeat constructor|].
        split; [intros _; right; now left|]. intros k [X|[X|[]]]; [discriminate|]. injection X as <-. right. now left.
      - split; [reflexivity|]. split; [reflexivity|]. exists []. split; [now rewrite app_nil_r|]. split; [constructor|]. split; [discriminate|]. intros k []. }
    destruct H as (U & B & t & T & F & C & D). destruct (IH s1) as (U' & B' & t' & T' & F' & C' & D'). split; [intros k; now rewrite U', U|]. split; [congruence|].
    exists (t ++ t'). split; [rewrite T', T; now rewrite app_assoc|]. split; [apply Forall_app; split; [exact F|]; now rewrite <- B|]. split.
    + intros k [<-|I] X; apply in_or_app; [left; now apply C|right; apply C'; [exact I|now rewrite U]].
    + intros k I. apply in_app_or in I as [I|I]; [destruct (D k I); [now left|right; apply in_or_app; now left]|].
      destruct (D' k I) as [X|X]; [left; congruence|right; apply in_or_app; now right].
Qed.
Lemma mhandle_ended msg s : mended s -> m_conn s = Some true -> mended (m_handle msg s) /\ m_conn (m_handle msg s) = Some true.
Proof.
  intros E O.
  assert (REL : forall s1 s', mended s1 -> m_conn s1 = Some true -> mrel s1 s' -> mended s' /\ m_conn s' = Some true).
  { intros s1 s' E1 O1 R. split; [exact (mended_rel _ _ R E1)|]. destruct R as (_ & _ & K & _). congruence. }
  unfold m_handle. destruct msg; try (apply (REL s); [exact E|exact O|apply mrel_emit; exact I]).
  destruct (kind_of msg) as [k|] eqn:KD; [|apply (REL s); [exact E|exact O|apply mrel_emit; exact I]].
  destruct (me_open s E ltac:(rewrite O; discriminate)) as (H1 & H2 & H3 & H4 & H5).
  assert (GOT : forall u, (u = true <-> m_unbound s = true \/ is_unbind msg) -> mended (mw_unbound u (memit (MGot id msg) s))).
  { intros u HU. assert (TI : forall e, In e (m_trace s ++ [MGot id msg]) <-> In e (m_trace s) \/ MGot id msg = e) by (intros e; rewrite in_app_iff; cbn; tauto).
    assert (G1 : ~ In MGone (m_trace s ++ [MGot id msg])) by (rewrite TI; intros [X|X]; [auto|discriminate]).
    assert (G2 : forall j, ~ In (MUnbind j) (m_trace s ++ [MGot id msg])) by (intros j; rewrite TI; intros [X|X]; [exact (H4 j X)|discriminate]).
    assert (G3 : forall j, ~ In (MCloseServer j) (m_trace s ++ [MGot id msg])) by (intros j; rewrite TI; intros [X|X]; [exact (H5 j X)|discriminate]).
    split; cbn [mw_unbound memit m_conn m_trace m_clients m_unbound].
    - intros _. split; [exact G1|]. split; [exact H2|]. split; [|now split]. rewrite HU, H3. unfold munbound. cbn [mw_unbound memit m_trace]. split.
      + intros [(i & o & X & Y)|Y]; [exists i, o|exists id, msg]; (split; [apply TI; auto|exact Y]).
      + intros (i & o & X & Y). apply TI in X as [X|X]; [left; eauto|]. injection X as <- <-. now right.
    - rewrite O. discriminate.
    - intros a b Q. exfalso. apply G1. rewrite Q. apply in_or_app. right. now left.
    - intros (j & X). now apply G2 in X.
    - intros j X. now apply G3 in X. }
  assert (SAME : forall u, mw_unbound (m_unbound u) u = u) by now intros [].
  assert (NU : k <> RUnbind -> mended (memit (MGot id msg) s)).
  { intros N. rewrite <- (SAME (memit (MGot id msg) s)). apply GOT. cbn. split; [now left|]. intros [X|(t & ->)]; [exact X|]. exfalso. apply N. cbn in KD. congruence. }
  assert (G : mended (match k with
              | RDelete | RAdd | RModifyDN | RModify | RExtended =>
                  match m_queue id (fail_obj k 53 (VBytes [])) (memit (MGot id msg) s) with (s', Ok _) => s' | (s', Err e) => memit (MRaised e) s' end
              | RUnbind => m_when id msg (mw_unbound true (memit (MGot id msg) s))
              | RBind | RSearch | RCompare | RAbandon => m_when id msg (memit (MGot id msg) s)
              end) /\ m_conn (match k with
              | RDelete | RAdd | RModifyDN | RModify | RExtended =>
                  match m_queue id (fail_obj k 53 (VBytes [])) (memit (MGot id msg) s) with (s', Ok _) => s' | (s', Err e) => memit (MRaised e) s' end
              | RUnbind => m_when id msg (mw_unbound true (memit (MGot id msg) s))
              | RBind | RSearch | RCompare | RAbandon => m_when id msg (memit (MGot id msg) s)
              end) = Some true).
  { assert (WH : k <> RUnbind -> mended (m_when id msg (memit (MGot id msg) s)) /\ m_conn (m_when id msg (memit (MGot id msg) s)) = Some true).
    { intros N. apply (REL (memit (MGot id msg) s)); [exact (NU N)|exact O|apply mrel_when]. }
    assert (FL : k <> RUnbind -> forall v, mended (match m_queue id v (memit (MGot id msg) s) with (s', Ok _) => s' | (s', Err e) => memit (MRaised e) s' end) /\
       m_conn (match m_queue id v (memit (MGot id msg) s) with (s', Ok _) => s' | (s', Err e) => memit (MRaised e) s' end) = Some true).
    { intros N v. pose proof (mrel_queue id v (memit (MGot id msg) s)) as R. destruct (m_queue id v (memit (MGot id msg) s)) as (s' & [u|e]); cbn [fst] in R.
      - exact (REL _ _ (NU N) O R).
      - apply (REL (memit (MGot id msg) s)); [exact (NU N)|exact O|]. eapply mrel_trans; [exact R|]. apply mrel_emit. exact I. }
    destruct k; try (apply WH; discriminate); try (apply FL; discriminate).
    apply (REL (mw_unbound true (memit (MGot id msg) s))); [|exact O|apply mrel_when]. apply GOT. split; [|reflexivity]. intros _. right.
    clear - KD. unfold is_unbind. destruct msg; try discriminate KD; match goal with X : cls |- _ => destruct X; try discriminate KD end. eauto. }
  destruct id as [|[|p|p]|]; try exact G. split; [exact E|exact O].
Qed.
Section M.
  Variable configs tls : nat.
  Lemma mended_step s e : mended s -> (forall j, e = MUp j -> m_conn s <> Some false) ->
    mended (mstep configs tls s e) /\ (m_conn (mstep configs tls s e) = Some false -> m_conn s = Some false \/ e = MLost).
  Proof.
    intros E UP.
    assert (REL : forall s', mrel s s' -> mended s' /\ (m_conn s' = Some false -> m_conn s = Some false \/ e = MLost)).
    { intros s' R. split; [exact (mended_rel _ _ R E)|]. destruct R as (_ & _ & K & _). intros X. left. congruence. }
    destruct e as [|j|j|msg|j msg|j| |n]; cbn [mstep].
    - destruct (m_conn s) as [b|] eqn:C; [apply REL, mrel_refl|]. split; [|discriminate]. destruct (me_open s E ltac:(rewrite C; discriminate)) as (H1 & H2 & H3 & H4 & H5).
      split; cbn [mw_conn m_conn m_trace m_clients m_unbound]; try apply E; try discriminate. intros _. now repeat (split; [assumption|]).
    - destruct (tries configs tls s j); [|apply REL, mrel_refl]. specialize (UP j eq_refl). destruct (me_open s E UP) as (H1 & H2 & H3 & H4 & H5).
      assert (E1 : forall a, mended (mw_all a (mw_clients (m_clients s ++ [j]) (mw_link j (mkLink true []) (mw_tried (j :: m_tried s) s))))).
      { intros a. split; cbn [mw_all mw_clients mw_link mw_tried m_conn m_trace m_clients m_unbound]; try apply E; [|intros X; now apply UP in X]. intros _. split; [exact H1|]. split; [|now repeat (split; [assumption|])].
        intros k X. apply in_or_app. destruct (Nat.eq_dec k j) as [Q|N]; [right; now left|]. left. apply H2. unfold ups in *. cbn in X. apply Nat.eqb_neq in N. now rewrite N in X. }
      assert (FIN : forall s1 : mst, mended s1 -> m_conn s1 = m_conn s -> mended (if m_all s1 then m_release (m_waiting s1) s1 else s1) /\
        (m_conn (if m_all s1 then m_release (m_waiting s1) s1 else s1) = Some false -> m_conn s = Some false \/ MUp j = MLost)).
      { intros s1 Q K. destruct (m_all s1) eqn:A; [|split; [exact Q|intros X; left; congruence]]. pose proof (mrel_release (m_waiting s1) s1 A) as R. split; [exact (mended_rel _ _ R Q)|].
        destruct R as (_ & _ & K' & _). intros X. left. congruence. }
      set (s1 := mw_clients (m_clients s ++ [j]) (mw_link j (mkLink true []) (mw_tried (j :: m_tried s) s))) in *.
      destruct (Nat.eqb (length (m_clients s1)) configs).
      + exact (FIN (mw_all true s1) (E1 true) eq_refl).
      + exact (FIN s1 (E1 (m_all s1)) eq_refl).
    - destruct (tries configs tls s j); [|apply REL, mrel_refl]. apply REL. eapply mrel_trans; [exact (mrel_refl s : mrel s (mw_tried (j :: m_tried s) s))|].
      eapply mrel_trans; [apply (mrel_emit MCloseClient); exact I|apply mrel_emit; exact I].
    - destruct (m_conn s) as [[]|] eqn:C; try (apply REL, mrel_refl). destruct (mhandle_ended msg s E C) as (A & K). split; [exact A|]. rewrite K. discriminate.
    - destruct (l_up (m_links s j)); [|apply REL, mrel_refl]. apply REL, mrel_response.
    - split; [|intros X; now left].
      assert (U : forall k, ups (mw_link j (mkLink false []) s) k = true -> ups s k = true) by (intros k; unfold ups; cbn; destruct (Nat.eqb k j); [discriminate|auto]).
      split; try apply E.
      + cbn [mw_link m_conn m_trace m_clients m_unbound]. intros O. destruct (me_open s E O) as (H1 & H2 & H3 & H4 & H5). split; [exact H1|]. split; [|now repeat (split; [assumption|])].
        intros k X. apply H2. exact (U k X).
      + cbn [mw_link m_conn m_trace m_clients m_unbound]. intros O. destruct (me_gone s E O) as (H1 & H2 & H3). split; [exact H1|]. split; [|exact H3]. intros k X. apply H2. exact (U k X).
    - destruct (m_conn s) as [[]|] eqn:C; try (apply REL, mrel_refl). split; [|now right].
      destruct (me_open s E ltac:(rewrite C; discriminate)) as (H1 & H2 & H3 & H4 & H5). destruct (close_spec (m_clients s) s) as (U & B & t & T & F & CL & SE). rewrite Forall_forall in F.
      set (s1 := m_close (m_clients s) s) in *.
      assert (TI : forall e, In e (m_trace s1 ++ [MGone]) <-> In e (m_trace s) \/ In e t \/ MGone = e) by (intros e; rewrite T, !in_app_iff; cbn; tauto).
      assert (UB : (exists id op, In (MGot id op) (m_trace s1 ++ [MGone]) /\ is_unbind op) <-> munbound s).
      { split; intros (id & op & X & Y); exists id, op; (split; [|exact Y]); rewrite TI in *; [destruct X as [X|[X|X]]; [exact X|destruct (F _ X)|discriminate]|now left]. }
      split; unfold munbound; cbn [memit mw_conn mw_unbound mw_clients m_conn m_trace m_clients m_unbound].
      + intros X. now destruct X.
      + intros _. split; [reflexivity|]. split; [|apply TI; right; now right]. intros k X. apply TI. right. left. change (ups s1 k = true) in X. rewrite U in X. apply CL; [now apply H2|exact X].
      + intros a b Q. rewrite T, <- app_assoc in Q. assert (b = []) as ->; [|intros k n op id []].
        assert (ND : ~ In MGone (m_trace s ++ t)) by (intros X; apply in_app_or in X as [X|X]; [auto|destruct (F _ X)]). rewrite app_assoc in Q. clear - Q ND. revert a Q. generalize dependent (m_trace s ++ t). intros l ND.
        induction l as [|x l IH]; intros a Q; [destruct a as [|y [|z a]]; [injection Q as <-; reflexivity|discriminate|discriminate]|].
        destruct a as [|y a]; [exfalso; injection Q as -> _; apply ND; now left|]. injection Q as -> Q. apply (IH (fun X => ND (or_intror X)) a Q).
      + rewrite UB. intros (k & X) Y. apply TI in X as [X|[X|X]]; [exact (H4 k X)| |discriminate]. pose proof (F _ X) as Z. cbn beta iota in Z. apply H3 in Y. congruence.
      + intros k X. rewrite UB. apply TI in X as [X|[X|X]]; [destruct (H5 k X)| |discriminate]. destruct (SE k X) as [Y|Y]; [right; now apply H3|left; apply TI; right; now left].
    - apply REL. exact (mrel_refl s).
  Qed.
  Lemma mended_run next es : backends_first es -> mended (mrun configs tls next es) /\ (m_conn (mrun configs tls next es) = Some false -> In MLost es).
  Proof.
    induction es as [|e es IH] using rev_ind; intros F.
    - split; [|discriminate]. split; cbn; try discriminate; try tauto.
      + intros _. split; [tauto|]. split; [discriminate|]. split; [|tauto]. split; [discriminate|]. intros (id & op & [] & _).
      + intros a b E. exfalso. revert E. destruct a; discriminate.
      + intros (j & []).
    - unfold mrun in *. rewrite fold_left_app. cbn [fold_left]. destruct IH as (E & G).
      { intros a b Q j I. apply (F a (b ++ [e])) with (j := j). - rewrite Q, <- app_assoc. reflexivity. - apply in_or_app. now left. }
      destruct (mended_step _ e E) as (E' & G').
      + intros j -> I. apply G in I. apply in_split in I as (a & b & ->). apply (F a (b ++ [MUp j])) with (j := j); [now rewrite <- app_assoc|]. apply in_or_app. right. now left.
      + split; [exact E'|]. intros I. apply in_or_app. destruct (G' I) as [X| ->]; [left; exact (G X)|right; now left].
  Qed.
End M.
