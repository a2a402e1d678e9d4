(** The simple proxy: what happens to the connection to the server when the client goes (C84). *)
From Verif Require Import Base BaseFacts BerModel LdapModel ServerModel ClientModel ProxyModel ProxySpec SimpleProxyModel SimpleProxySpec SimpleProxyProofs MergerModel CloseSpec.

Section One.
  Variable c : nat.
  Definition core (x : sconn) := (sc_phase x, sc_open x, sc_client x, l_up (sc_link x)).
  (** What may be added to the trace by anything but the ends of the connection *)
  Definition mild (cl : bool) (e : sev) : Prop :=
    match e with
    | SGone d => d <> c
    | SForward d _ _ _ => d = c -> cl = true
    | SUnbind d | SCloseServer d => d <> c
    | SGot d _ _ => d <> c
    | _ => True
    end.
  Definition rel (s s' : sst) : Prop :=
    core (s_conns s' c) = core (s_conns s c) /\ sc_unbound (s_conns s' c) = sc_unbound (s_conns s c) /\
    exists t, s_trace s' = s_trace s ++ t /\ Forall (mild (sc_client (s_conns s c))) t.
  Lemma rel_refl s : rel s s.
  Proof. split; [reflexivity|]. split; [reflexivity|]. exists []. split; [now rewrite app_nil_r|constructor]. Qed.
  Lemma rel_trans s1 s2 s3 : rel s1 s2 -> rel s2 s3 -> rel s1 s3.
  Proof.
    intros (A & U & t & T & F) (A' & U' & t' & T' & F'). split; [congruence|]. split; [congruence|]. exists (t ++ t'). split; [rewrite T', T; now rewrite app_assoc|].
    apply Forall_app. split; [exact F|]. unfold core in A. replace (sc_client (s_conns s1 c)) with (sc_client (s_conns s2 c)) by congruence. exact F'.
  Qed.
  Lemma rel_emit e s : mild (sc_client (s_conns s c)) e -> rel s (semit e s).
  Proof. intros M. split; [reflexivity|]. split; [reflexivity|]. exists [e]. split; [reflexivity|]. now constructor. Qed.
  Lemma rel_next n s : rel s (with_snext n s). Proof. exact (rel_refl s). Qed.
  Lemma rel_waiting w s : rel s (with_waiting w s). Proof. exact (rel_refl s). Qed.
  Lemma rel_conn d x s : core x = core (s_conns s d) -> sc_unbound x = sc_unbound (s_conns s d) -> rel s (with_sconn d x s).
  Proof.
    intros E U. split; [|split; [|exists []; split; [now rewrite app_nil_r|constructor]]]; cbn; destruct (Nat.eq_dec c d) as [->|N]; rewrite ?upd_same, ?(upd_other _ _ _ _ N); auto.
  Qed.
  Lemma rel_queue d id op s : rel s (client_queue d id op s).
  Proof.
    unfold client_queue. destruct (sc_client (s_conns s d)) eqn:C.
    - destruct (needs_answer op).
      + assert (L : forall n l r, send_multi op id (s_next s) (sc_link (s_conns s d)) = (n, l, r) -> l_up l = l_up (sc_link (s_conns s d))).
        { intros n l r. unfold send_multi. destruct (l_up (sc_link (s_conns s d))) eqn:U; [|intros [= <- <- <-]; exact U]. destruct (wire_has _ _); [intros [= <- <- <-]; exact U|].
          destruct (negb _); [intros [= <- <- <-]; exact U|]. intros [= <- <- <-]. reflexivity. }
        destruct (send_multi op id (s_next s) (sc_link (s_conns s d))) as ((n, l), r) eqn:E. specialize (L _ _ _ eq_refl).
        assert (R : rel s (with_sconn d (set_link l (s_conns s d)) (with_snext n s))).
        { apply (rel_conn d (set_link l (s_conns s d)) (with_snext n s)); [unfold core, set_link; cbn; now rewrite L|reflexivity]. }
        destruct r; (eapply rel_trans; [exact R|]; apply rel_emit); try exact I. intros ->. cbn. now rewrite upd_same.
      + destruct (send_none op (s_next s) (sc_link (s_conns s d))) as (n, [|e|e]); (eapply rel_trans; [apply rel_next|]; apply rel_emit); try exact I. intros ->. exact C.
    - apply rel_emit. exact I.
  Qed.
  Lemma rel_when d id op s : rel s (when_connected d id op s).
  Proof. unfold when_connected. destruct (sc_client (s_conns s d)); [apply rel_queue|apply rel_waiting]. Qed.
  Lemma rel_release l : forall s, rel s (release l s).
  Proof. induction l as [|(d & (id & op)) r IH]; intros s; [apply rel_refl|]. cbn [release]. eapply rel_trans; [|apply IH]. eapply rel_trans; [apply (rel_waiting r)|apply rel_queue]. Qed.
  Lemma rel_reply d id b v s : rel s (fst (sreply d id b v s)).
  Proof.
    unfold sreply. destruct (sc_conn (s_conns s d)); [|apply rel_refl]. destruct (toWire _); [|apply rel_refl]. cbn [fst]. destruct (sc_open (s_conns s d)); [|apply rel_refl].
    apply rel_emit. exact I.
  Qed.
  Lemma rel_response d msg s : rel s (sresponse d msg s).
  Proof.
    unfold sresponse. destruct msg; try (apply rel_emit; exact I). destruct (is_response _); [|apply rel_emit; exact I]. match goal with |- rel _ (match ?x with _ => _ end) => destruct x as [|i|] end; try (apply rel_emit; exact I).
    destruct (i =? 0); [apply rel_refl|]. destruct (find _ _) as [(b & rid)|]; [|apply rel_emit; exact I].
    match goal with |- context [sreply d rid i ?v (semit (SArrived d i ?v) s)] => pose proof (rel_reply d rid i v (semit (SArrived d i v) s)) as R; destruct (sreply d rid i v (semit (SArrived d i v) s)) as (s' & [u|e]); cbn [fst] in R;
      (assert (R1 : rel s s') by (eapply rel_trans; [apply (rel_emit (SArrived d i v)); exact I|exact R])) end.
    - destruct (last_response _); [|exact R1]. eapply rel_trans; [exact R1|]. now apply rel_conn.
    - eapply rel_trans; [exact R1|]. apply rel_emit. exact I.
  Qed.

  (** What holds while [lost] says whether SLost c has happened *)
  Record ended (s : sst) : Prop := {
    e_open : sc_open (s_conns s c) = true -> ~ In (SGone c) (s_trace s);
    e_link : sc_client (s_conns s c) = false -> l_up (sc_link (s_conns s c)) = true -> In (SGone c) (s_trace s);
    e_close : In (SGone c) (s_trace s) -> l_up (sc_link (s_conns s c)) = true -> In (SCloseServer c) (s_trace s);
    e_client : In (SGone c) (s_trace s) -> sc_client (s_conns s c) = false;
    e_quiet : quiet_after c (s_trace s);
    e_unbound : sc_open (s_conns s c) = true -> ((sc_unbound (s_conns s c) = true <-> exists id op, In (SGot c id op) (s_trace s) /\ is_unbind op) /\ ~ In (SUnbind c) (s_trace s) /\ ~ In (SCloseServer c) (s_trace s));
    e_unbind : In (SUnbind c) (s_trace s) -> forall id op, In (SGot c id op) (s_trace s) -> ~ is_unbind op;
    e_sent : In (SCloseServer c) (s_trace s) -> In (SUnbind c) (s_trace s) \/ exists id op, In (SGot c id op) (s_trace s) /\ is_unbind op;
    e_new : sc_phase (s_conns s c) = PhNew -> sc_open (s_conns s c) = false /\ sc_unbound (s_conns s c) = false /\ sc_client (s_conns s c) = false /\ (forall e, In e (s_trace s) -> mild false e) }.
  Lemma rel_other d x s : d <> c -> rel s (with_sconn d x s).
  Proof.
    intros N. split; [|split; [|exists []; split; [now rewrite app_nil_r|constructor]]]; cbn; now rewrite upd_other by (intros E; now apply N).
  Qed.
  Lemma split_gone (t u a b : list sev) : t ++ u = a ++ SGone c :: b -> ~ In (SGone c) u -> exists b', t = a ++ SGone c :: b' /\ b = b' ++ u.
  Proof.
    revert a. induction t as [|x t IH]; intros a E N.
    - exfalso. apply N. cbn in E. rewrite E. apply in_or_app. right. now left.
    - destruct a as [|y a]; cbn in E; [injection E as -> <-; now exists t|]. injection E as -> E. destruct (IH a E N) as (b' & -> & ->). now exists b'.
  Qed.
  Lemma ended_rel s s' : rel s s' -> ended s -> ended s'.
  Proof.
    intros (A & U & t & T & F) E. unfold core in A. injection A as A1 A2 A3 A4. rewrite Forall_forall in F.
    assert (TI : forall e, In e (s_trace s') <-> In e (s_trace s) \/ In e t) by (intros e; rewrite T; apply in_app_iff).
    assert (NG : ~ In (SGone c) t) by (intros I; now apply (F _ I)).
    assert (NU : ~ In (SUnbind c) t) by (intros I; now apply (F _ I)).
    assert (NC : ~ In (SCloseServer c) t) by (intros I; now apply (F _ I)).
    assert (NR : forall id op, ~ In (SGot c id op) t) by (intros id op I; now apply (F _ I)).
    assert (G : In (SGone c) (s_trace s') <-> In (SGone c) (s_trace s)) by (rewrite TI; tauto).
    assert (G2 : In (SUnbind c) (s_trace s') <-> In (SUnbind c) (s_trace s)) by (rewrite TI; tauto).
    assert (G3 : In (SCloseServer c) (s_trace s') <-> In (SCloseServer c) (s_trace s)) by (rewrite TI; tauto).
    assert (G4 : forall id op, In (SGot c id op) (s_trace s') <-> In (SGot c id op) (s_trace s)) by (intros id op; rewrite TI; pose proof (NR id op); tauto).
    assert (G5 : (exists id op, In (SGot c id op) (s_trace s') /\ is_unbind op) <-> exists id op, In (SGot c id op) (s_trace s) /\ is_unbind op).
    { split; intros (id & op & I & J); exists id, op; (split; [now apply G4|exact J]). }
    split; rewrite ?A1, ?A2, ?A3, ?A4, ?U, ?G, ?G2, ?G3, ?G5; try apply E.
    - intros a b Q n op id I. rewrite T in Q. destruct (split_gone _ _ _ _ Q NG) as (b' & Q' & ->). apply in_app_or in I as [I|I]; [exact (e_quiet s E a b' Q' n op id I)|].
      pose proof (F _ I eq_refl) as X. assert (Y : In (SGone c) (s_trace s)) by (rewrite Q'; apply in_or_app; right; now left). rewrite (e_client s E Y) in X. discriminate.
    - intros H id op I. apply G4 in I. exact (e_unbind s E H id op I).
    - intros P. destruct (e_new s E P) as (O & UB & CL & N). split; [exact O|]. split; [exact UB|]. split; [exact CL|]. intros e I. apply TI in I as [I|I]; [exact (N e I)|].
      rewrite <- CL. exact (F e I).
  Qed.
  Lemma rel_gone s s' : rel s s' -> In (SGone c) (s_trace s') -> In (SGone c) (s_trace s).
  Proof. intros (_ & _ & t & T & F) I. rewrite T in I. apply in_app_or in I as [I|I]; [exact I|]. rewrite Forall_forall in F. destruct (F _ I eq_refl). Qed.

  Lemma handle_spec d id op s : rel s s -> let s1 := semit (SGot d id op) s in
    let s2 := match op with ONull KUnbind _ => when_connected d id op (with_sconn d (set_unbound true (s_conns s1 d)) s1) | _ => when_connected d id op s1 end in
    exists s3, rel s3 s2 /\ s_trace s3 = s_trace s ++ [SGot d id op] /\ (forall k, k <> d -> s_conns s3 k = s_conns s k) /\
      core (s_conns s3 d) = core (s_conns s d) /\ (is_unbind op -> sc_unbound (s_conns s3 d) = true) /\ (~ is_unbind op -> sc_unbound (s_conns s3 d) = sc_unbound (s_conns s d)).
  Proof.
    intros _. cbn zeta.
    assert (D : (exists t, op = ONull KUnbind t) \/ (~ is_unbind op /\ forall (A : Type) (x y : A), match op with ONull KUnbind _ => x | _ => y end = y)).
    { unfold is_unbind. destruct op; try (right; split; [intros (t & X); discriminate|reflexivity]). destruct k; try (right; split; [intros (t' & X); discriminate|reflexivity]). left. eauto. }
    destruct D as [(t & ->)|(N & E)].
    - exists (with_sconn d (set_unbound true (s_conns (semit (SGot d id (ONull KUnbind t)) s) d)) (semit (SGot d id (ONull KUnbind t)) s)). split; [apply rel_when|]. split; [reflexivity|].
      split; [intros k Nk; cbn; now apply upd_other|]. cbn. rewrite upd_same. split; [reflexivity|]. split; [reflexivity|]. intros X. exfalso. apply X. now exists t.
    - rewrite E. exists (semit (SGot d id op) s). split; [apply rel_when|]. split; [reflexivity|]. split; [reflexivity|]. split; [reflexivity|]. split; [intros X; now apply N in X|reflexivity].
  Qed.

  Lemma got_ended d id op s s3 : ended s -> sc_open (s_conns s d) = true ->
    s_trace s3 = s_trace s ++ [SGot d id op] -> (forall k, k <> d -> s_conns s3 k = s_conns s k) ->
    core (s_conns s3 d) = core (s_conns s d) -> (is_unbind op -> sc_unbound (s_conns s3 d) = true) ->
    (~ is_unbind op -> sc_unbound (s_conns s3 d) = sc_unbound (s_conns s d)) -> (is_unbind op \/ ~ is_unbind op) -> ended s3.
  Proof.
    intros E O T K C U1 U2 DEC. destruct (Nat.eq_dec d c) as [->|N].
    2:{ apply (ended_rel s); [|exact E]. assert (X : s_conns s3 c = s_conns s c) by (apply K; congruence). split; [now rewrite X|]. split; [now rewrite X|].
        exists [SGot d id op]. split; [exact T|]. constructor; [exact N|constructor]. }
    unfold core in C. injection C as C1 C2 C3 C4. pose proof (e_open s E O) as NG. destruct (e_unbound s E O) as (UB & NU & NC).
    assert (TI : forall e, In e (s_trace s3) <-> In e (s_trace s) \/ SGot c id op = e).
    { intros e. rewrite T, in_app_iff. cbn. tauto. }
    assert (G : ~ In (SGone c) (s_trace s3)) by (rewrite TI; intros [X|X]; [auto|discriminate]).
    assert (G2 : ~ In (SUnbind c) (s_trace s3)) by (rewrite TI; intros [X|X]; [auto|discriminate]).
    assert (G3 : ~ In (SCloseServer c) (s_trace s3)) by (rewrite TI; intros [X|X]; [auto|discriminate]).
    split; rewrite ?C1, ?C2, ?C3, ?C4.
    - intros _. exact G.
    - intros A D. exfalso. exact (NG (e_link s E A D)).
    - intros X; now apply G in X.
    - intros X; now apply G in X.
    - intros a b Q. exfalso. apply G. rewrite Q. apply in_or_app. right. now left.
    - intros _. split; [|now split]. destruct DEC as [Y|Y].
      + rewrite (U1 Y). split; [|reflexivity]. intros _. exists id, op. split; [apply TI; now right|exact Y].
      + rewrite (U2 Y). rewrite UB. split; intros (i & o & I & J); exists i, o; (split; [|exact J]).
        * apply TI. now left.
        * apply TI in I as [I|I]; [exact I|]. exfalso. injection I as <- <-. exact (Y J).
    - intros X; now apply G2 in X.
    - intros X; now apply G3 in X.
    - intros P. destruct (e_new s E P) as (O' & _). congruence.
  Qed.
  Lemma unbind_dec op : is_unbind op \/ ~ is_unbind op.
  Proof.
    unfold is_unbind. destruct op; try (right; intros (t & X); discriminate X). destruct k; try (right; intros (t' & X); discriminate X). left. eauto.
  Qed.
  Lemma handle_ended d msg s : ended s -> sc_open (s_conns s d) = true ->
    ended (shandle d msg s) /\ (In (SGone c) (s_trace (shandle d msg s)) -> In (SGone c) (s_trace s)).
  Proof.
    intros E O.
    assert (REL : forall s', rel s s' -> ended s' /\ (In (SGone c) (s_trace s') -> In (SGone c) (s_trace s))).
    { intros s' R. split; [exact (ended_rel _ _ R E)|]. intros I. exact (rel_gone _ _ R I). }
    unfold shandle. destruct msg; try (apply REL, rel_emit; exact I). destruct (kind_of _); [|apply REL, rel_emit; exact I].
    destruct (handle_spec d id msg s (rel_refl s)) as (s3 & R & T & K & C & U1 & U2).
    assert (E3 : ended s3) by exact (got_ended d id msg s s3 E O T K C U1 U2 (unbind_dec msg)).
    assert (G : forall s', rel s3 s' -> ended s' /\ (In (SGone c) (s_trace s') -> In (SGone c) (s_trace s))).
    { intros s' R'. split; [exact (ended_rel _ _ R' E3)|]. intros X. apply (rel_gone _ _ R') in X. rewrite T in X. apply in_app_or in X as [X|[X|[]]]; [exact X|discriminate]. }
    apply G in R. cbn zeta in R. destruct id as [|z|]; [exact R| |exact R]. destruct z; [apply REL, rel_refl|exact R|exact R].
  Qed.

  Lemma ended_step s e : ended s -> (e = SUp c -> ~ In (SGone c) (s_trace s)) ->
    ended (sstep s e) /\ (In (SGone c) (s_trace (sstep s e)) -> In (SGone c) (s_trace s) \/ e = SLost c).
  Proof.
    intros E UP.
    assert (REL : forall s', rel s s' -> ended s' /\ (In (SGone c) (s_trace s') -> In (SGone c) (s_trace s) \/ e = SLost c)).
    { intros s' R. split; [exact (ended_rel _ _ R E)|]. intros I. left. exact (rel_gone _ _ R I). }
    destruct e as [d|d|d|d msg|d msg|d|d|n]; cbn [sstep].
    - destruct (sc_phase (s_conns s d)) eqn:P; try (apply REL, rel_refl). destruct (Nat.eq_dec d c) as [->|N]; [|now apply REL, rel_other].
      destruct (e_new s E P) as (O & UB & CL & N). split; [|intros I; now left].
      assert (NG : ~ In (SGone c) (s_trace s)) by (intros I; now apply (N _ I)).
      split; cbn [with_sconn s_conns s_trace]; rewrite ?upd_same; cbn [sc_phase sc_open sc_client sc_link sc_unbound]; try (intros I; now apply NG in I); try apply E.
      + intros _. exact NG.
      + intros _. split; [|split; intros I; now apply (N _ I)]. rewrite UB. split; [discriminate|]. intros (id & op & I & _). exact (False_ind _ (N _ I eq_refl)).
      + discriminate.
    - destruct (sc_phase (s_conns s d)) eqn:P; try (apply REL, rel_refl). destruct (Nat.eq_dec d c) as [->|N].
      + match goal with |- ended (release ?l ?x) /\ _ => pose proof (rel_release l x) as R; set (s1 := x) in * end.
        specialize (UP eq_refl). assert (E1 : ended s1).
        { split; unfold s1; cbn [with_sconn s_conns s_trace]; rewrite ?upd_same; cbn [sc_phase sc_open sc_client sc_link sc_unbound]; try (intros I; now apply UP in I); try apply E; try discriminate. }
        split; [exact (ended_rel _ _ R E1)|]. intros I. apply (rel_gone _ _ R) in I. now left.
      + apply REL. eapply rel_trans; [apply (rel_other d); exact N|apply rel_release].
    - destruct (sc_phase (s_conns s d)) eqn:P; try (apply REL, rel_refl). destruct (Nat.eq_dec d c) as [->|N].
      + set (s1 := with_sconn c (set_phase PhDone (s_conns s c)) s). pose proof (rel_emit (SRaised c ELostConn) s1 I) as R.
        assert (E1 : ended s1).
        { split; unfold s1; cbn [with_sconn s_conns s_trace]; rewrite ?upd_same; cbn [set_phase sc_phase sc_open sc_client sc_link sc_unbound]; try apply E; try discriminate. }
        split; [exact (ended_rel _ _ R E1)|]. intros I. apply (rel_gone _ _ R) in I. now left.
      + apply REL. eapply rel_trans; [apply (rel_other d); exact N|]. now apply rel_emit.
    - destruct (sc_open (s_conns s d)) eqn:O; [|apply REL, rel_refl]. destruct (handle_ended d msg s E O) as (A & G). split; [exact A|]. intros X. left. exact (G X).
    - destruct (l_up (sc_link (s_conns s d))); [|apply REL, rel_refl]. apply REL, rel_response.
    - destruct (Nat.eq_dec d c) as [->|N]; [|now apply REL, rel_other]. split; [|intros X; now left].
      split; cbn [with_sconn s_conns s_trace]; rewrite ?upd_same; cbn [set_link sc_phase sc_open sc_client sc_link sc_unbound l_up]; try apply E; try discriminate.
    - destruct (sc_open (s_conns s d)) eqn:O; [|apply REL, rel_refl]. destruct (Nat.eq_dec d c) as [->|N].
      2:{ apply REL. destruct (sc_client (s_conns s d)).
          - eapply rel_trans; [|apply rel_emit; cbn; exact N]. eapply rel_trans; [|apply rel_other; exact N]. destruct (l_up _); [|apply rel_refl]. destruct (sc_unbound _); [now apply rel_emit|].
            eapply rel_trans; [|apply rel_emit; exact N]. eapply rel_trans; [apply rel_next|apply rel_emit; exact N].
          - eapply rel_trans; [|apply rel_emit; cbn; exact N]. eapply rel_trans; [|apply rel_emit; exact I]. apply rel_other; exact N. }
      split; [|intros _; now right].
      pose proof (e_open s E O) as NG. destruct (e_unbound s E O) as (UB & NU & NC).
      assert (Q : forall t, ~ In (SGone c) t -> quiet_after c (s_trace s ++ t ++ [SGone c])).
      { intros t N a b EQ n op id I. rewrite app_assoc in EQ. assert (b = []) as ->; [|destruct I].
        assert (ND : ~ In (SGone c) (s_trace s ++ t)) by (intros X; apply in_app_or in X as [X|X]; auto). clear - EQ ND. revert a EQ. generalize dependent (s_trace s ++ t). intros l ND.
        induction l as [|x l IH]; intros a EQ; [destruct a as [|y [|z a]]; [injection EQ as <-; reflexivity|discriminate|discriminate]|].
        destruct a as [|y a]; [exfalso; injection EQ as -> _; apply ND; now left|]. injection EQ as -> EQ. apply (IH (fun X => ND (or_intror X)) a EQ). }
      destruct (sc_client (s_conns s c)) eqn:CL; [destruct (l_up (sc_link (s_conns s c))) eqn:UPL; [destruct (sc_unbound (s_conns s c)) eqn:UBD|]|].
      + split; cbn [semit with_sconn s_conns s_trace]; rewrite ?upd_same; cbn [sc_phase sc_open sc_client sc_link sc_unbound]; try discriminate; rewrite <- ?app_assoc.
        * intros _ _. rewrite !in_app_iff; cbn [In]; tauto.
        * intros _ _. rewrite !in_app_iff; cbn [In]; tauto.
        * reflexivity.
        * apply (Q [SCloseServer c]). intros [X|[]]. discriminate.
        * intros X. exfalso. rewrite !in_app_iff in X. destruct X as [X|[[X|[]]|[X|[]]]]; [exact (NU X)|discriminate|discriminate].
        * intros _. right. destruct (proj1 UB eq_refl) as (id & op & I & J). exists id, op. split; [apply in_or_app; now left|exact J].
        * intros P. destruct (e_new s E P) as (O' & _). congruence.
      + split; cbn [semit with_sconn with_snext s_conns s_trace]; rewrite ?upd_same; cbn [sc_phase sc_open sc_client sc_link sc_unbound]; try discriminate; rewrite <- ?app_assoc.
        * intros _ _. rewrite !in_app_iff; cbn [In]; tauto.
        * intros _ _. rewrite !in_app_iff; cbn [In]; tauto.
        * reflexivity.
        * apply (Q [SUnbind c; SCloseServer c]). intros [X|[X|[]]]; discriminate.
        * intros _ id op X J. rewrite !in_app_iff in X. destruct X as [X|[[X|[]]|[[X|[]]|[X|[]]]]]; try discriminate.
          assert (F : false = true) by (apply UB; exists id, op; now split). discriminate.
        * intros _. left. rewrite !in_app_iff; cbn [In]; tauto.
        * intros P. destruct (e_new s E P) as (O' & _). congruence.
      + split; cbn [semit with_sconn with_snext s_conns s_trace]; rewrite ?upd_same; cbn [sc_phase sc_open sc_client sc_link sc_unbound]; rewrite ?UPL; try discriminate; rewrite <- ?app_assoc.
        * reflexivity.
        * apply (Q []). intros [].
        * intros X. exfalso. rewrite !in_app_iff in X. destruct X as [X|[X|[]]]; [exact (NU X)|discriminate].
        * intros X. exfalso. rewrite !in_app_iff in X. destruct X as [X|[X|[]]]; [exact (NC X)|discriminate].
        * intros P. destruct (e_new s E P) as (O' & _). congruence.
      + split; cbn [semit with_sconn with_snext s_conns s_trace]; rewrite ?upd_same; cbn [sc_phase sc_open sc_client sc_link sc_unbound]; try discriminate; rewrite <- ?app_assoc.
        * intros _ _. rewrite !in_app_iff; cbn [In]; tauto.
        * intros _ X. exfalso. exact (NG (e_link s E CL X)).
        * intros _. reflexivity.
        * apply (Q [SRaised c EAssert]). intros [X|[]]. discriminate.
        * intros X. exfalso. rewrite !in_app_iff in X. destruct X as [X|[[X|[]]|[X|[]]]]; [exact (NU X)|discriminate|discriminate].
        * intros X. exfalso. rewrite !in_app_iff in X. destruct X as [X|[[X|[]]|[X|[]]]]; [exact (NC X)|discriminate|discriminate].
        * intros P. destruct (e_new s E P) as (O' & _). congruence.
    - apply REL, rel_next.
  Qed.
  Lemma ended0 next : ended (s0 next).
  Proof.
    split; cbn [s0 s_conns c0 sc_open sc_client sc_link l_up sc_unbound sc_phase s_trace In]; try discriminate; try tauto.
    intros a b E. exfalso. revert E. destruct a; discriminate.
  Qed.
  Lemma ended_run next es : server_first c es -> ended (srun (s0 next) es) /\ (In (SGone c) (s_trace (srun (s0 next) es)) -> In (SLost c) es).
  Proof.
    induction es as [|e es IH] using rev_ind; intros F; [split; [apply ended0|intros []]|].
    unfold srun in *. rewrite fold_left_app. cbn [fold_left]. destruct IH as (E & G). { intros a b Q I. apply (F a (b ++ [e])). - rewrite Q, <- app_assoc. reflexivity. - apply in_or_app. now left. }
    destruct (ended_step _ e E) as (E' & G').
    - intros -> I. apply G in I. apply in_split in I as (a & b & ->). apply (F a (b ++ [SUp c])); [now rewrite <- app_assoc|]. apply in_or_app. right. now left.
    - split; [exact E'|]. intros I. apply in_or_app. destruct (G' I) as [X| ->]; [left; exact (G X)|right; now left].
  Qed.
End One.
