(** The connection of PdnsModel, and what is needed for the theorems of PropsPdns. *)
From Coq Require Import Permutation.
From Verif Require Import Base BaseFacts Utf8Model DnModel EntryModel FilterTextModel UtilModel ToolsModel PdnsModel PdnsSpec PdnsText PdnsProofs.

Section Fetch.
  Variable lower : str -> str.
  Variable depth : nat.
  Variable domain : str.
  Variable argv0 : str.
  Variable repr : str -> str.
  Variable traceback : exn -> list str.
  Notation answer := (answer lower domain argv0 repr traceback).
  Notation about := (about domain).
  Notation failed := (failed traceback).
  Notation found := (found lower domain traceback).
  Notation search := (search lower depth domain traceback).
  Notation call_all := (call_all lower depth domain traceback).
  Notation fail_all := (fail_all traceback).
  Notation cb_entry := (cb_entry lower depth domain traceback).
  Notation eb_entry := (eb_entry traceback).
  Notation get_entry := (get_entry lower depth domain traceback).
  Notation line_received := (line_received lower depth domain argv0 repr traceback).
  Notation step := (step lower depth domain argv0 repr traceback).
  Notation run := (run lower depth domain argv0 repr traceback).
  Notation INV := (INV lower depth domain argv0 repr traceback).

  (** What the steps of a line add *)
  Definition inner (e : ptev) : Prop := match e with PSent _ | PStop | PFound _ _ | PSearch _ _ _ | PRefused _ _ | PExc _ => True | _ => False end.
  Record calm (p p' : pdns) : Prop := mkCalm {
    c_entry : p_entry p' = p_entry p; c_fetching : p_fetching p' = p_fetching p; c_pending : p_pending p' = p_pending p;
    c_ended : p_ended p' = p_ended p; c_more : exists es, p_trace p' = p_trace p ++ es /\ Forall inner es }.
  Lemma calm_refl p : calm p p. Proof. constructor; auto. exists []. rewrite app_nil_r. auto. Qed.
  Lemma calm_trans p q r : calm p q -> calm q r -> calm p r.
  Proof. intros [A B C D (e1 & E1 & F1)] [A' B' C' D' (e2 & E2 & F2)]. constructor; try congruence. exists (e1 ++ e2). rewrite E2, E1, <- app_assoc. split; [reflexivity|]. apply Forall_app. auto. Qed.
  Lemma calm_emit es p : Forall inner es -> calm p (emit es p). Proof. intros F. constructor; try reflexivity. exists es. auto. Qed.
  Lemma calm_one e p : inner e -> calm p (emit [e] p). Proof. intros H. apply calm_emit. constructor; [exact H|constructor]. Qed.
  Lemma inner_work w : Forall inner (snd (do_work w)).
  Proof.
    induction w as [|i w IH]; cbn [do_work]; [constructor|]. destruct i as [n|[|l ls]|]; [constructor|repeat constructor|..].
    - destruct (do_work w) as (w' & es). cbn [snd] in *. apply Forall_app. split; [|exact IH]. generalize (l :: ls) as k. clear. induction k as [|l k IH]; constructor; auto. exact Logic.I.
    - destruct w; repeat constructor.
  Qed.
  Lemma calm_completed n ls p : calm p (completed n ls p).
  Proof.
    unfold completed, work. pose proof (inner_work (p_work (set_work (put_item n ls (p_work p)) p))) as F. destruct (do_work _) as (w & es). cbn [snd] in F.
    constructor; try reflexivity. exists es. auto.
  Qed.
  Lemma calm_found n q r p : calm p (found n q r p).
  Proof.
    unfold PdnsModel.found, PdnsModel.failed. cbv zeta. eapply calm_trans; [apply (calm_one (PFound n r)); exact Logic.I|].
    destruct r as [es|x]; [destruct (got _ _ q es)|]; apply calm_completed.
  Qed.
  Lemma calm_search soon n q p : calm p (search soon n q p).
  Proof.
    unfold PdnsModel.search, PdnsModel.failed. cbv zeta. destruct (parse_filter _ _) as [f|x].
    - eapply calm_trans; [apply (calm_one (PSearch n f (search_attrs q))); exact Logic.I|].
      destruct (soon n) as [r|]; [apply calm_found|]. constructor; try reflexivity. exists []. now rewrite app_nil_r.
    - eapply calm_trans; [apply (calm_one (PRefused n x)); exact Logic.I|]. apply calm_completed.
  Qed.
  Lemma calm_waiting ws p : calm p (set_waiting ws p). Proof. constructor; try reflexivity. exists []. now rewrite app_nil_r. Qed.
  Lemma calm_calls soon : forall ws p, calm p (call_all soon ws p).
  Proof.
    induction ws as [|(n & q) ws IH]; intros p; cbn [PdnsModel.call_all]; [apply calm_refl|]. cbv zeta. eapply calm_trans; [apply calm_waiting with (ws := ws)|]. eapply calm_trans; [|apply IH].
    destruct q; [apply calm_search|apply calm_refl].
  Qed.
  Lemma calm_fails x : forall ws p, calm p (fail_all x ws p).
  Proof.
    induction ws as [|(n & [q|]) ws IH]; intros p; cbn [PdnsModel.fail_all]; [apply calm_refl| |apply IH]. eapply calm_trans; [|apply IH].
    eapply calm_trans; [apply (calm_one (PRefused n x)); exact Logic.I|]. apply calm_completed.
  Qed.

  (** A connection is asked for, and neither has it come nor has it failed *)
  Definition closing (e : ptev) : Prop := match e with PEntry _ | PNoEntry _ | PRaised _ _ => True | _ => False end.
  Definition raised (tr : list ptev) : Prop := exists n x, In (PRaised n x) tr.
  Record FINV (p : pdns) : Prop := mkFINV {
    f_pending : p_pending p = true -> p_fetching p = true /\ awaited (p_trace p);
    f_fetching : p_fetching p = true -> p_entry p = None;
    f_waiting : p_waiting p <> [] -> p_fetching p = true;
    f_lost : p_fetching p = true -> p_pending p = true \/ raised (p_trace p);
    f_bound : (length (p_waiting p) <= 11)%nat;
    f_raised : raised (p_trace p) -> p_entry p = None /\ p_fetching p = true /\ p_pending p = false
  }.
  Lemma inner_open es : Forall inner es -> Forall (fun e => ~ closing e) es.
  Proof. apply Forall_impl. intros [] X; cbn in *; tauto. Qed.
  Lemma awaited_more tr es : Forall (fun e => ~ closing e) es -> awaited tr -> awaited (tr ++ es).
  Proof. intros F (a & b & -> & H). exists a, (b ++ es). split; [now rewrite <- app_assoc|]. intros e J. apply in_app_iff in J as [J|J]; [exact (H e J)|]. rewrite Forall_forall in F. specialize (F e J). destruct e; cbn in *; tauto. Qed.
  Lemma raised_more tr es : raised tr -> raised (tr ++ es). Proof. intros (n & x & J). exists n, x. apply in_app_iff. now left. Qed.
  Lemma raised_less tr es : Forall (fun e => ~ closing e) es -> raised (tr ++ es) -> raised tr.
  Proof. intros F (n & x & J). exists n, x. apply in_app_iff in J as [J|J]; [exact J|]. rewrite Forall_forall in F. destruct (F _ J). exact I. Qed.
  Lemma finv_more p p' es : FINV p -> p_entry p' = p_entry p -> p_fetching p' = p_fetching p -> p_pending p' = p_pending p -> p_waiting p' = p_waiting p ->
    p_trace p' = p_trace p ++ es -> Forall (fun e => ~ closing e) es -> FINV p'.
  Proof.
    intros [] E1 E2 E3 E4 E5 F. constructor; rewrite ?E1, ?E2, ?E3, ?E4, ?E5; auto.
    - intros H. destruct (f_pending0 H). split; [auto|now apply awaited_more].
    - intros H. destruct (f_lost0 H); [auto|right; now apply raised_more].
    - intros H. apply raised_less in H; auto.
  Qed.
  Lemma finv_calm p p' : FINV p -> calm p p' -> p_waiting p' = p_waiting p -> FINV p'.
  Proof. intros H [] W. destruct c_more0 as (es & E & F). apply finv_more with (p := p) (es := es); auto. now apply inner_open. Qed.
  (** After a connection, or its failure *)
  Lemma finv_clear p : p_fetching p = false -> p_pending p = false -> p_waiting p = [] -> ~ raised (p_trace p) -> FINV p.
  Proof. intros A B C D. constructor; rewrite ?A, ?B, ?C; try discriminate; try congruence; try tauto. cbn. lia. Qed.
  Lemma eb_raised x p : ~ raised (p_trace p) -> FINV (eb_entry x p).
  Proof.
    intros R. unfold PdnsModel.eb_entry. cbv zeta. set (p1 := set_waiting [] _). pose proof (calm_fails x (p_waiting (emit [PNoEntry x] (set_fetch (p_entry p) false false p))) p1) as C.
    pose proof (fails_same traceback x (p_waiting (emit [PNoEntry x] (set_fetch (p_entry p) false false p))) p1) as W. set (p2 := fail_all _ _ p1) in *. clearbody p2. destruct C, W. destruct c_more0 as (es & E & F).
    apply finv_clear; [now rewrite s_fetching|now rewrite s_pending|now rewrite s_waiting|]. rewrite E. intros X. apply raised_less in X; [|now apply inner_open]. destruct X as (n & y & X).
    unfold p1 in X. cbn [set_waiting emit p_trace set_fetch] in X. apply in_app_iff in X as [X|[X|[]]]; [|discriminate]. apply R. exists n, y. exact X.
  Qed.
  Lemma cb_raised soon c p : ~ raised (p_trace p) -> FINV (cb_entry soon c p).
  Proof.
    intros R. unfold PdnsModel.cb_entry. cbv zeta. destruct (p_entry (set_fetch _ _ _ p)); [now apply eb_raised|].
    set (p1 := emit [PEntry c] _). pose proof (calm_calls soon (p_waiting p1) p1) as C. destruct (calls_same lower depth domain traceback soon (p_waiting p1) p1 eq_refl) as (E1 & E2 & E3 & E4).
    set (p2 := call_all _ _ p1) in *. clearbody p2. destruct C. destruct c_more0 as (es & E & F).
    apply finv_clear; [now rewrite E2|now rewrite E3|exact E4|]. rewrite E. intros X. apply raised_less in X; [|now apply inner_open]. destruct X as (n & y & X).
    unfold p1 in X. cbn [set_waiting emit p_trace set_fetch] in X. apply in_app_iff in X as [X|[X|[]]]; [|discriminate]. apply R. exists n, y. exact X.
  Qed.
  Lemma open_raised p : FINV p -> p_fetching p = false \/ p_pending p = true -> ~ raised (p_trace p).
  Proof. intros H D X. apply (f_raised p H) in X as (_ & A & B). destruct D; congruence. Qed.
  Lemma finv_get m soon n q p : FINV p -> FINV (get_entry m soon n q p).
  Proof.
    intros H. unfold PdnsModel.get_entry. destruct (p_entry p) as [c|] eqn:EE.
    { apply finv_calm with (1 := H); [apply calm_search|apply (s_waiting _ _ (same_search lower depth domain traceback soon n q p))]. }
    destruct (Nat.ltb_spec 10 (length (p_waiting p))) as [L|L].
    { apply finv_calm with (1 := H); [|apply (s_waiting _ _ (same_completed n _ (emit [PRefused n ETooMuch] p)))]. eapply calm_trans; [apply (calm_one (PRefused n ETooMuch)); exact Logic.I|]. apply calm_completed. }
    cbv zeta. destruct (p_fetching (set_waiting _ p)) eqn:EF; cbn [set_waiting p_fetching] in EF.
    { destruct H. constructor; cbn [set_waiting p_entry p_fetching p_pending p_waiting p_trace]; auto. rewrite app_length. cbn [length]. lia. }
    pose proof (open_raised p H (or_introl EF)) as R.
    assert (R1 : forall d, ~ raised (p_trace (emit [PFetch] (set_fetch (p_entry (set_waiting (p_waiting p ++ [(n, Some q)]) p)) true d (set_waiting (p_waiting p ++ [(n, Some q)]) p))))).
    { intros d. cbn [emit set_fetch set_waiting p_trace]. intros X. apply raised_less in X; [auto|]. repeat constructor. intros []. }
    destruct m as [|[c|x]|x]; [|now apply cb_raised|now apply eb_raised|].
    - constructor; cbn [emit set_fetch set_waiting p_entry p_fetching p_pending p_waiting p_trace]; auto.
      + intros _. split; [reflexivity|]. exists (p_trace p), []. split; [reflexivity|]. intros ? [].
      + rewrite app_length. cbn [length]. lia.
      + intros X. destruct (R1 true X).
    - unfold PdnsModel.failed. eapply finv_calm; [|apply calm_completed|apply (s_waiting _ _ (same_completed _ _ _))].
      constructor; cbn [emit set_fetch set_waiting p_entry p_fetching p_pending p_waiting p_trace]; auto; try discriminate.
      + intros _. right. exists n, x. apply in_app_iff. right. now left.
      + rewrite forget_app, app_length. cbn [length]. lia.
  Qed.
  Lemma finv_step p e : FINV p -> FINV (step p e).
  Proof.
    intros H. destruct e as [s m soon|c soon|x|n r|c|]; cbn [PdnsModel.step].
    - destruct (p_ended p); [exact H|]. unfold PdnsModel.line_received. destruct (handle _ _ _ _ s) as (main & r). change (mkPdns main _ _ _ _ _ _ _ _ _) with (with_line main s p).
      assert (H1 : FINV (with_line main s p)) by (apply finv_more with (p := p) (es := [PLine (p_lines p) s]); auto; repeat constructor; intros []).
      destruct r as [ls|q]; [|now apply finv_get]. eapply finv_calm; [exact H1|apply calm_completed|apply (s_waiting _ _ (same_completed _ _ _))].
    - destruct (p_pending p) eqn:E; [|exact H]. apply cb_raised. eauto using open_raised.
    - destruct (p_pending p) eqn:E; [|exact H]. apply eb_raised. eauto using open_raised.
    - destruct (asked n (p_search p)) as [q|]; [|exact H]. eapply finv_calm; [|apply calm_found|apply (s_waiting _ _ (same_found _ _ _ _ _ _ _))]. apply finv_more with (p := p) (es := []); auto. cbn. now rewrite app_nil_r.
    - unfold lost_client. cbv zeta.
      assert (H1 : FINV (emit [PLost c] p)) by (apply finv_more with (p := p) (es := [PLost c]); auto; repeat constructor; intros []).
      assert (H2 : FINV (emit [PExc EAssert] (emit [PLost c] p))) by (apply finv_more with (p := emit [PLost c] p) (es := [PExc EAssert]); auto; repeat constructor; intros []).
      destruct (p_entry (emit [PLost c] p)) as [d|] eqn:EE; [|exact H2]. destruct (Nat.eqb d c); [|exact H2].
      destruct H1. constructor; auto. intros X. apply f_raised0 in X as (X & _). congruence.
    - destruct (p_ended p); [exact H|]. unfold input_lost, work. match goal with |- context [do_work ?w] => pose proof (inner_work w) as F; destruct (do_work w) as (w' & es) end. cbn [snd] in F.
      apply finv_more with (p := p) (es := [PEnd] ++ es); auto; [cbn [emit set_work p_trace]; now rewrite app_assoc|]. apply Forall_app. split; [repeat constructor; intros []|now apply inner_open].
  Qed.
  Lemma finv_run evs : FINV (run evs).
  Proof.
    unfold PdnsModel.run. assert (G : forall l p, FINV p -> FINV (fold_left step l p)) by (induction l as [|e l IH]; intros p H; cbn [fold_left]; [exact H|]; apply IH, finv_step, H).
    apply G. apply finv_clear; try reflexivity. intros (n & x & []).
  Qed.

  (** ** The lines that come *)
  Record later (p p' : pdns) : Prop := mkLater {
    l_ended : p_ended p' = p_ended p; l_more : exists es, p_trace p' = p_trace p ++ es /\ lines es = [] }.
  Lemma later_trans p q r : later p q -> later q r -> later p r.
  Proof. intros [A (e1 & E1 & F1)] [A' (e2 & E2 & F2)]. constructor; try congruence. exists (e1 ++ e2). rewrite E2, E1, <- app_assoc, lines_app, F1, F2. auto. Qed.
  Lemma inner_lines es : Forall inner es -> lines es = [].
  Proof. induction 1 as [|e es He H IH]; [reflexivity|]. unfold lines in *. cbn [flat_map]. rewrite IH. destruct e; cbn in *; tauto. Qed.
  Lemma later_calm p p' : calm p p' -> later p p'.
  Proof. intros []. destruct c_more0 as (es & E & F). constructor; [auto|]. exists es. auto using inner_lines. Qed.
  Lemma later_set p p' : p_ended p' = p_ended p -> p_trace p' = p_trace p -> later p p'.
  Proof. intros A B. constructor; [exact A|]. exists []. now rewrite app_nil_r. Qed.
  Lemma later_emit e p p' : p_ended p' = p_ended p -> p_trace p' = p_trace p ++ [e] -> lines [e] = [] -> later p p'.
  Proof. intros A B C. constructor; [exact A|]. exists [e]. auto. Qed.
  Lemma later_eb x p : later p (eb_entry x p).
  Proof. unfold PdnsModel.eb_entry. cbv zeta. eapply later_trans; [|apply later_calm, calm_fails]. apply later_emit with (e := PNoEntry x); reflexivity. Qed.
  Lemma later_cb soon c p : later p (cb_entry soon c p).
  Proof.
    unfold PdnsModel.cb_entry. cbv zeta. destruct (p_entry (set_fetch _ _ _ p)).
    - eapply later_trans; [|apply later_eb]. now apply later_set.
    - eapply later_trans; [|apply later_calm, calm_calls]. apply later_emit with (e := PEntry c); reflexivity.
  Qed.
  Lemma later_get m soon n q p : later p (get_entry m soon n q p).
  Proof.
    unfold PdnsModel.get_entry. destruct (p_entry p); [apply later_calm, calm_search|]. destruct (10 <? length (p_waiting p))%nat.
    { apply later_calm. eapply calm_trans; [apply (calm_one (PRefused n ETooMuch)); exact Logic.I|]. apply calm_completed. }
    cbv zeta. destruct (p_fetching (set_waiting _ p)); [now apply later_set|].
    assert (L : forall d, later p (emit [PFetch] (set_fetch (p_entry (set_waiting (p_waiting p ++ [(n, Some q)]) p)) true d (set_waiting (p_waiting p ++ [(n, Some q)]) p)))) by (intros d; apply later_emit with (e := PFetch); reflexivity).
    destruct m as [|[c|x]|x]; [apply L|eapply later_trans; [apply L|apply later_cb]|eapply later_trans; [apply L|apply later_eb]|].
    eapply later_trans; [apply (L true)|]. unfold PdnsModel.failed. eapply later_trans; [|apply later_calm, calm_completed]. constructor; [reflexivity|]. exists [PRaised n x; PRefused n x]. auto.
  Qed.
  Lemma step_lines p e : map snd (lines (p_trace (step p e))) = map snd (lines (p_trace p)) ++ (if p_ended p then [] else match e with ILine s _ _ => [s] | _ => [] end) /\
    p_ended (step p e) = (p_ended p || match e with IEnd => true | _ => false end)%bool.
  Proof.
    assert (K : forall p', later p p' -> map snd (lines (p_trace p')) = map snd (lines (p_trace p)) /\ p_ended p' = p_ended p).
    { intros p' [A (es & B & C)]. rewrite B, lines_app, C, app_nil_r. auto. }
    assert (NN : (if p_ended p then [] else []) = @nil str) by (destruct (p_ended p); reflexivity).
    destruct e as [s m soon|c soon|x|n r|c|]; cbn [PdnsModel.step]; rewrite ?orb_false_r.
    - destruct (p_ended p) eqn:E; [rewrite app_nil_r; auto|]. unfold PdnsModel.line_received. destruct (handle _ _ _ _ s) as (main & r). change (mkPdns main _ _ _ _ _ _ _ _ _) with (with_line main s p).
      assert (L : forall p', later (with_line main s p) p' -> map snd (lines (p_trace p')) = map snd (lines (p_trace p)) ++ [s] /\ p_ended p' = false).
      { intros p' [A (es & B & C)]. rewrite B, lines_app, C, app_nil_r. cbn [with_line p_trace p_ended] in *. rewrite lines_app, map_app. cbn. split; [reflexivity|congruence]. }
      destruct r as [ls|q]; apply L; [apply later_calm, calm_completed|apply later_get].
    - rewrite NN, app_nil_r; (destruct (p_pending p); [apply K, later_cb|auto]).
    - rewrite NN, app_nil_r; (destruct (p_pending p); [apply K, later_eb|auto]).
    - rewrite NN, app_nil_r; (destruct (asked n (p_search p)); [|auto]); apply K; (eapply later_trans; [|apply later_calm, calm_found]; now apply later_set).
    - rewrite NN, app_nil_r; apply K; unfold lost_client; cbv zeta.
      all: assert (L : later p (emit [PExc EAssert] (emit [PLost c] p))) by (eapply later_trans; [apply (later_emit (PLost c) p (emit [PLost c] p)); reflexivity|apply (later_emit (PExc EAssert)); reflexivity]).
      all: destruct (p_entry (emit [PLost c] p)) as [d|]; [|exact L]; destruct (Nat.eqb d c); [|exact L]; now apply later_emit with (e := PLost c).
    - destruct (p_ended p) eqn:E; [rewrite app_nil_r; auto|]. rewrite app_nil_r. cbn [orb]. unfold input_lost, work. match goal with |- context [do_work ?w] => pose proof (inner_work w) as F; destruct (do_work w) as (w' & es) end. cbn [snd] in F.
      cbn [emit set_work p_trace p_ended]. rewrite !lines_app, (inner_lines es F). cbn. now rewrite !app_nil_r.
  Qed.
  Lemma run_lines evs : map snd (lines (p_trace (run evs))) = input_lines evs /\ (p_ended (run evs) = true <-> In IEnd evs).
  Proof.
    unfold PdnsModel.run. assert (G : forall l p, map snd (lines (p_trace (fold_left step l p))) = map snd (lines (p_trace p)) ++ (if p_ended p then [] else input_lines l) /\
      (p_ended (fold_left step l p) = true <-> p_ended p = true \/ In IEnd l)).
    { induction l as [|e l IH]; intros p; cbn [fold_left input_lines]; [split; [destruct (p_ended p); now rewrite app_nil_r|cbn; tauto]|].
      destruct (IH (step p e)) as (A & B). destruct (step_lines p e) as (C & D). rewrite A, B, C, D. clear A B C D IH. split.
      - destruct (p_ended p); cbn [orb]; [now rewrite !app_nil_r|]. destruct e; cbn [orb]; rewrite <- ?app_assoc; reflexivity.
      - rewrite orb_true_iff. cbn [In]. destruct e; split; intros X; repeat (destruct X as [X|X]); try discriminate; auto. }
    destruct (G evs pdns_0) as (A & B). cbn in A, B. split; [exact A|]. rewrite B. split; [intros [X|X]; [discriminate|auto]|auto].
  Qed.
End Fetch.
