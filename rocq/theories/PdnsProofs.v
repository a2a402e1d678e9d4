(** The invariant of PdnsModel: what is in the work list, and what has been sent. *)
From Coq Require Import Permutation.
From Verif Require Import Base BaseFacts Utf8Model DnModel EntryModel FilterTextModel UtilModel ToolsModel PdnsModel PdnsSpec PdnsText.

Lemma NoDup_app_ {A} (l m : list A) : NoDup l -> NoDup m -> (forall x, In x l -> In x m -> False) -> NoDup (l ++ m).
Proof.
  induction l as [|x l IH]; intros N M D; [exact M|]. inversion N; subst. cbn [app]. constructor.
  - rewrite in_app_iff. intros [J|J]; [auto|]. apply (D x); [now left|exact J].
  - apply IH; auto. intros y J K. apply (D y); [now right|exact K].
Qed.
Lemma lines_app a b : lines (a ++ b) = lines a ++ lines b. Proof. apply flat_map_app. Qed.
Lemma sent_app a b : sent (a ++ b) = sent a ++ sent b. Proof. apply flat_map_app. Qed.
Lemma sent_map ls : sent (map PSent ls) = ls. Proof. unfold sent. induction ls as [|l ls IH]; [reflexivity|]. cbn [map flat_map app]. now rewrite IH. Qed.
Lemma lines_map ls : lines (map PSent ls) = []. Proof. unfold lines. induction ls as [|l ls IH]; [reflexivity|]. cbn [map flat_map app]. exact IH. Qed.
(** The lines that were searched for; those that have got a result, or were refused *)
Definition searched (tr : list ptev) : list nat := flat_map (fun e => match e with PSearch n _ _ => [n] | _ => [] end) tr.
Definition settled (tr : list ptev) : list nat := flat_map (fun e => match e with PFound n _ | PRefused n _ => [n] | _ => [] end) tr.
Lemma searched_app a b : searched (a ++ b) = searched a ++ searched b. Proof. apply flat_map_app. Qed.
Lemma settled_app a b : settled (a ++ b) = settled a ++ settled b. Proof. apply flat_map_app. Qed.
Lemma settled_in tr n : In n (settled tr) <-> (exists r, In (PFound n r) tr) \/ (exists x, In (PRefused n x) tr).
Proof.
  unfold settled. rewrite in_flat_map. split.
  - intros (e & J & H). destruct e; cbn in H; try tauto; destruct H as [<-|[]]; [right|left]; eauto.
  - intros [(r & J)|(x & J)]; eexists; (split; [exact J|now left]).
Qed.
(** The lines among those that wait whose callbacks are there *)
Definition alive (ws : list (nat * option question)) : list nat := flat_map (fun w => match snd w with Some _ => [fst w] | None => [] end) ws.
Lemma alive_app a b : alive (a ++ b) = alive a ++ alive b. Proof. apply flat_map_app. Qed.
Lemma alive_in ws n : In n (alive ws) <-> exists q, In (n, Some q) ws.
Proof.
  unfold alive. rewrite in_flat_map. split.
  - intros ((m & [q|]) & J & H); cbn in H; [|tauto]. destruct H as [<-|[]]. eauto.
  - intros (q & J). exists (n, Some q). split; [exact J|now left].
Qed.
Definition out (p : pdns) (hand : list nat) : list nat := map fst (p_search p) ++ alive (p_waiting p) ++ hand.

  Lemma searched_in tr n : In n (searched tr) <-> exists f at_, In (PSearch n f at_) tr.
  Proof.
    unfold searched. rewrite in_flat_map. split.
    - intros (e & J & H). destruct e; cbn in H; try tauto. destruct H as [<-|[]]. eauto.
    - intros (f & at_ & J). eexists; (split; [exact J|now left]).
  Qed.
Section Proofs.
  Variable lower : str -> str.
  Variable depth : nat.
  Variable domain : str.
  Variable argv0 : str.
  Variable repr : str -> str.
  Variable traceback : exn -> list str.
  Notation answer := (answer lower domain argv0 repr traceback).
  Notation about := (about domain).
  Notation failed := (failed traceback).
  Notation found := (found lower domain traceback).
  Notation search := (search lower depth domain traceback).
  Notation call_all := (call_all lower depth domain traceback).
  Notation fail_all := (fail_all traceback).
  Notation cb_entry := (cb_entry lower depth domain traceback).
  Notation eb_entry := (eb_entry traceback).
  Notation get_entry := (get_entry lower depth domain traceback).
  Notation step := (step lower depth domain argv0 repr traceback).
  Notation run := (run lower depth domain argv0 repr traceback).

  (** Why a line was refused *)
  Definition reason (tr : list ptev) (n : nat) (q : question) (x : exn) : Prop :=
    x = ETooMuch \/ parse_filter depth (PStr (text_of q)) = Err x \/ In (PRaised n x) tr \/ In (PNoEntry x) tr.

  Record INV (p : pdns) (hand : list nat) (ans : list (list str)) (its : list item) : Prop := mkINV {
    i_lines : map fst (lines (p_trace p)) = seq 0 (p_lines p);
    i_main : p_main p = true <-> greeted (p_trace p) (p_lines p);
    i_sent : sent (p_trace p) = concat ans;
    i_count : (length ans + length its)%nat = p_lines p;
    i_ans : forall i ls, nth_error ans i = Some ls -> answer (p_trace p) i ls;
    i_its : forall j it, nth_error its j = Some it ->
              match it with WWait m => m = (length ans + j)%nat | WDone ls => ls <> [] /\ answer (p_trace p) (length ans + j) ls | WExit => False end;
    i_work : p_work p = its ++ (if p_ended p then match its with [] => [] | _ => [WExit] end else []);
    i_flush : match its with WDone _ :: _ => False | _ => True end;
    i_stop : In PStop (p_trace p) <-> p_ended p = true /\ its = [];
    i_end : p_ended p = true <-> In PEnd (p_trace p);
    i_stops : forall a b, p_trace p = a ++ PStop :: b -> sent b = [] /\ ~ In PStop b;
    i_wait : forall m, In (WWait m) its <-> In m (out p hand);
    i_nodup : NoDup (out p hand);
    i_search : forall n q, In (n, q) (p_search p) -> about (p_trace p) n q /\ ~ In n (settled (p_trace p)) /\ In n (searched (p_trace p));
    i_waiting : forall n q, In (n, Some q) (p_waiting p) -> about (p_trace p) n q /\ ~ In n (settled (p_trace p)) /\ ~ In n (searched (p_trace p));
    i_once : NoDup (searched (p_trace p)) /\ NoDup (settled (p_trace p));
    i_exc : forall x, In (PExc x) (p_trace p) -> exists c, In (PLost c) (p_trace p);
    i_ps : forall n f at_, In (PSearch n f at_) (p_trace p) -> exists q, about (p_trace p) n q /\ parse_filter depth (PStr (text_of q)) = Ok f /\ at_ = [asked_for q];
    i_ref : forall n x, In (PRefused n x) (p_trace p) -> exists q, about (p_trace p) n q /\ reason (p_trace p) n q x;
    i_found : forall n r, In (PFound n r) (p_trace p) -> In n (searched (p_trace p))
  }.

  (** ** Monotony *)
  Lemma about_mono tr es n q : about tr n q -> about (tr ++ es) n q.
  Proof.
    intros (s & J & (m & L & G) & A). exists s. rewrite lines_app. split; [apply in_app_iff; now left|]. split; [|exact A].
    exists m. split; [exact L|]. rewrite lines_app. apply in_app_iff. now left.
  Qed.
  (** Only lines with greater numbers come *)
  Lemma answer_mono tr es n ls : (forall m s, In (m, s) (lines es) -> (n <= m)%nat) -> answer tr n ls -> answer (tr ++ es) n ls.
  Proof.
    intros L H. destruct H as [main s ls J G I|q es' ls A F R|q es' A F R|q x A F|q x A F].
    - apply answer_now with (main := main) (s := s); [rewrite lines_app; apply in_app_iff; now left| |exact I].
      rewrite G. unfold greeted. split; intros (m & Lm & Jm); exists m; (split; [exact Lm|]); rewrite lines_app in *.
      + apply in_app_iff. now left.
      + apply in_app_iff in Jm as [Jm|Jm]; [exact Jm|]. specialize (L _ _ Jm). lia.
    - apply answer_found with (q := q) (es := es'); [now apply about_mono|apply in_app_iff; now left|exact R].
    - apply answer_octets with (q := q) (es := es'); [now apply about_mono|apply in_app_iff; now left|exact R].
    - apply answer_failed with (q := q); [now apply about_mono|apply in_app_iff; now left].
    - apply answer_refused with (q := q); [now apply about_mono|apply in_app_iff; now left].
  Qed.
  Lemma reason_mono tr es n q x : reason tr n q x -> reason (tr ++ es) n q x.
  Proof. unfold reason. rewrite !in_app_iff. tauto. Qed.

  (** ** Other states with the same work *)
  Lemma reshape p p' hand hand' ans its : INV p hand ans its ->
    p_main p' = p_main p -> p_work p' = p_work p -> p_lines p' = p_lines p -> p_ended p' = p_ended p -> p_trace p' = p_trace p ->
    Permutation (out p hand) (out p' hand') ->
    (forall n q, In (n, q) (p_search p') -> about (p_trace p) n q /\ ~ In n (settled (p_trace p)) /\ In n (searched (p_trace p))) ->
    (forall n q, In (n, Some q) (p_waiting p') -> about (p_trace p) n q /\ ~ In n (settled (p_trace p)) /\ ~ In n (searched (p_trace p))) ->
    INV p' hand' ans its.
  Proof.
    intros I E1 E2 E3 E4 E5 P S W. destruct I. constructor; rewrite ?E1, ?E2, ?E3, ?E4, ?E5; auto.
    - intros m. rewrite i_wait0. split; apply Permutation_in; [exact P|now apply Permutation_sym].
    - now apply Permutation_NoDup with (2 := i_nodup0).
  Qed.
  (** Events that are no lines, and settle or search only lines at hand *)
  Definition plain (e : ptev) : Prop := match e with PLine _ _ | PSent _ | PStop | PEnd => False | _ => True end.
  Lemma plain_none es : Forall plain es -> lines es = [] /\ sent es = [] /\ ~ In PStop es /\ ~ In PEnd es.
  Proof.
    induction 1 as [|e es H _ (L & S & N & M)]; [repeat split; intros []|]. destruct e; cbn in H; try tauto; repeat split; cbn; auto; intros [X|X]; try discriminate; auto.
  Qed.
  Lemma stops_after a0 b0 es a b : (forall a b, a0 = a ++ PStop :: b -> sent b = [] /\ ~ In PStop b) -> b0 = a0 ++ es -> sent es = [] -> ~ In PStop es ->
    b0 = a ++ PStop :: b -> sent b = [] /\ ~ In PStop b.
  Proof.
    intros H -> S N E. apply app_eq_app in E. destruct E as (l & [(-> & E)|(-> & E)]).
    - destruct l as [|e l].
      + exfalso. apply N. cbn [app] in E. rewrite <- E. now left.
      + injection E as <- ->. destruct (H a l eq_refl) as (S1 & N1). rewrite sent_app, S1, S. split; [reflexivity|]. rewrite in_app_iff. tauto.
    - exfalso. apply N. rewrite E. apply in_app_iff. right. now left.
  Qed.
  Lemma emitted p hand ans its es : INV p hand ans its -> Forall plain es ->
    (forall n, In n (settled es) -> In n hand /\ ~ In n (settled (p_trace p))) -> (forall n, In n (searched es) -> In n hand /\ ~ In n (searched (p_trace p))) ->
    NoDup (settled es) -> NoDup (searched es) ->
    (forall x, In (PExc x) es -> exists c, In (PLost c) (p_trace p ++ es)) ->
    (forall n f at_, In (PSearch n f at_) es -> exists q, about (p_trace p) n q /\ parse_filter depth (PStr (text_of q)) = Ok f /\ at_ = [asked_for q]) ->
    (forall n x, In (PRefused n x) es -> exists q, about (p_trace p) n q /\ reason (p_trace p ++ es) n q x) ->
    (forall n r, In (PFound n r) es -> In n (searched (p_trace p))) ->
    INV (emit es p) hand ans its.
  Proof.
    intros I F HS HQ N1 N2 HE HP HR HF. destruct (plain_none es F) as (EL & ES & NS & NE). destruct I.
    assert (Out : forall n, In n (map fst (p_search p) ++ alive (p_waiting p)) -> In n hand -> False).
    { unfold out in i_nodup0. rewrite app_assoc in i_nodup0. intros n J1 J2. revert J1 J2 i_nodup0. generalize (map fst (p_search p) ++ alive (p_waiting p)) as l. intros l J1 J2 N.
      apply in_split in J1 as (l1 & l2 & ->). rewrite <- app_assoc in N. cbn [app] in N. apply NoDup_remove_2 in N. apply N. rewrite !in_app_iff. tauto. }
    constructor; cbn [emit p_main p_work p_lines p_ended p_trace p_search p_waiting] in *; auto.
    - now rewrite lines_app, EL, app_nil_r.
    - rewrite i_main0. unfold greeted. rewrite lines_app, EL, app_nil_r. tauto.
    - now rewrite sent_app, ES, app_nil_r.
    - intros i ls J. apply answer_mono; [rewrite EL; intros ? ? []|auto].
    - intros j it J. specialize (i_its0 j it J). destruct it; auto. destruct i_its0 as (X & Y). split; [exact X|]. apply answer_mono; [rewrite EL; intros ? ? []|exact Y].
    - rewrite in_app_iff. tauto.
    - rewrite in_app_iff. tauto.
    - intros a b E. eapply stops_after; eauto.
    - intros n q J. destruct (i_search0 n q J) as (A & B & C). split; [now apply about_mono|]. rewrite settled_app, searched_app, !in_app_iff. split; [|tauto]. intros [X|X]; [auto|].
      apply HS in X as (X & _). apply (Out n); [|exact X]. apply in_app_iff. left. now apply (in_map fst) in J.
    - intros n q J. destruct (i_waiting0 n q J) as (A & B & C). assert (J' : In n (map fst (p_search p) ++ alive (p_waiting p))) by (apply in_app_iff; right; apply alive_in; eauto).
      split; [now apply about_mono|]. rewrite settled_app, searched_app, !in_app_iff. split; intros [X|X]; auto; [apply HS in X as (X & _)|apply HQ in X as (X & _)]; exact (Out n J' X).
    - rewrite settled_app, searched_app. destruct i_once0 as (O1 & O2). split; apply NoDup_app_; auto; intros n J1 J2; [apply HQ in J2|apply HS in J2]; tauto.
    - intros x J. apply in_app_iff in J as [J|J]; [|exact (HE x J)]. destruct (i_exc0 x J) as (c & Jc). exists c. apply in_app_iff. now left.
    - intros n f at_ J. apply in_app_iff in J as [J|J]; [destruct (i_ps0 _ _ _ J) as (q & A & X)|destruct (HP _ _ _ J) as (q & A & X)]; exists q; (split; [now apply about_mono|exact X]).
    - intros n x J. apply in_app_iff in J as [J|J]; [destruct (i_ref0 _ _ J) as (q & A & X)|destruct (HR _ _ J) as (q & A & X)]; exists q; (split; [now apply about_mono|]); [now apply reason_mono|exact X].
    - intros n r J. rewrite searched_app. apply in_app_iff. left. apply in_app_iff in J as [J|J]; eauto.
  Qed.

  (** ** The work list *)
  (** What _doWork does with lists of lines, lines that wait, and the sentinel behind them *)
  Lemma do_work_spec its (ended : bool) : Forall (fun i => match i with WWait _ => True | WDone ls => ls <> [] | WExit => False end) its ->
    exists done its', its = map WDone done ++ its' /\ (match its' with WDone _ :: _ => False | _ => True end) /\
      do_work (its ++ (if ended then [WExit] else [])) = (its' ++ (if ended then match its' with [] => [] | _ => [WExit] end else []),
        map PSent (concat done) ++ (if ended then match its' with [] => [PStop] | _ => [] end else [])).
  Proof.
    induction 1 as [|i its Hi F (done & its' & E & L & W)].
    - exists [], []. split; [reflexivity|]. split; [exact I|]. destruct ended; reflexivity.
    - destruct i as [m|ls|]; [|..|tauto].
      + exists [], (WWait m :: its). split; [reflexivity|]. split; [exact I|]. destruct ended; reflexivity.
      + exists (ls :: done), its'. rewrite E. split; [reflexivity|]. split; [exact L|]. rewrite <- E. cbn [app do_work]. destruct ls as [|l ls]; [congruence|]. rewrite W. cbn [map concat]. now rewrite map_app, <- app_assoc.
  Qed.
  Lemma sent_stop ls (b : bool) : sent (map PSent ls ++ (if b then [PStop] else [])) = ls /\ lines (map PSent ls ++ (if b then [PStop] else [])) = [].
  Proof. rewrite sent_app, lines_app, sent_map, lines_map. destruct b; cbn; now rewrite ?app_nil_r. Qed.
  Lemma quiet_sends ls (b : bool) : settled (map PSent ls ++ (if b then [PStop] else [])) = [] /\ searched (map PSent ls ++ (if b then [PStop] else [])) = [].
  Proof. rewrite settled_app, searched_app. assert (settled (map PSent ls) = [] /\ searched (map PSent ls) = []) as (-> & ->) by (split; induction ls; auto). destruct b; auto. Qed.
  Lemma only_sends ls (b : bool) e : In e (map PSent ls ++ (if b then [PStop] else [])) -> (exists l, e = PSent l) \/ (e = PStop /\ b = true).
  Proof. rewrite in_app_iff, in_map_iff. intros [(l & <- & _)|J]; [eauto|]. destruct b; [|destruct J]. destruct J as [<-|[]]. auto. Qed.

  (** A state whose lists are filled, but which has not yet been looked through *)
  Record HALF (p : pdns) (hand : list nat) (ans : list (list str)) (its : list item) : Prop := mkHALF {
    h_lines : map fst (lines (p_trace p)) = seq 0 (p_lines p);
    h_main : p_main p = true <-> greeted (p_trace p) (p_lines p);
    h_sent : sent (p_trace p) = concat ans;
    h_count : (length ans + length its)%nat = p_lines p;
    h_ans : forall i ls, nth_error ans i = Some ls -> answer (p_trace p) i ls;
    h_its : forall j it, nth_error its j = Some it ->
              match it with WWait m => m = (length ans + j)%nat | WDone ls => ls <> [] /\ answer (p_trace p) (length ans + j) ls | WExit => False end;
    h_work : p_work p = its ++ (if p_ended p then [WExit] else []);
    h_stop : ~ In PStop (p_trace p);
    h_end : p_ended p = true <-> In PEnd (p_trace p);
    h_wait : forall m, In (WWait m) its <-> In m (out p hand);
    h_nodup : NoDup (out p hand);
    h_search : forall n q, In (n, q) (p_search p) -> about (p_trace p) n q /\ ~ In n (settled (p_trace p)) /\ In n (searched (p_trace p));
    h_waiting : forall n q, In (n, Some q) (p_waiting p) -> about (p_trace p) n q /\ ~ In n (settled (p_trace p)) /\ ~ In n (searched (p_trace p));
    h_once : NoDup (searched (p_trace p)) /\ NoDup (settled (p_trace p));
    h_exc : forall x, In (PExc x) (p_trace p) -> exists c, In (PLost c) (p_trace p);
    h_ps : forall n f at_, In (PSearch n f at_) (p_trace p) -> exists q, about (p_trace p) n q /\ parse_filter depth (PStr (text_of q)) = Ok f /\ at_ = [asked_for q];
    h_ref : forall n x, In (PRefused n x) (p_trace p) -> exists q, about (p_trace p) n q /\ reason (p_trace p) n q x;
    h_found : forall n r, In (PFound n r) (p_trace p) -> In n (searched (p_trace p))
  }.
  Lemma worked p hand ans its : HALF p hand ans its -> exists ans' its', INV (work p) hand ans' its'.
  Proof.
    intros I. destruct I.
    destruct (do_work_spec its (p_ended p)) as (done & its' & E & L & W).
    { rewrite Forall_forall. intros i J. apply In_nth_error in J as (j & J). specialize (h_its0 j i J). destruct i; tauto. }
    set (b := p_ended p && match its' with [] => true | _ => false end).
    assert (EV : (if p_ended p then match its' with [] => [PStop] | _ => [] end else []) = (if b then [PStop] else [])) by (unfold b; destruct (p_ended p), its'; reflexivity).
    rewrite EV in W. clear EV. exists (ans ++ done), its'. unfold work. rewrite h_work0, W. set (es := map PSent (concat done) ++ _) in *.
    destruct (sent_stop (concat done) b) as (S1 & S2). destruct (quiet_sends (concat done) b) as (Q1 & Q2). fold es in S1, S2, Q1, Q2.
    assert (O : forall e, In e es -> (exists l, e = PSent l) \/ (e = PStop /\ b = true)) by apply only_sends.
    assert (AM : forall n ls, answer (p_trace p) n ls -> answer (p_trace p ++ es) n ls) by (intros n ls; apply answer_mono; rewrite S2; intros ? ? []).
    assert (LD : length its = (length done + length its')%nat) by (rewrite E, app_length, map_length; reflexivity).
    assert (ND : forall i ls, nth_error done i = Some ls -> answer (p_trace p) (length ans + i) ls).
    { intros i ls J. assert (J' : nth_error its i = Some (WDone ls)) by (rewrite E, nth_error_app1 by (rewrite map_length; apply nth_error_Some; congruence); now apply map_nth_error). now destruct (h_its0 i _ J'). }
    constructor; cbn [emit set_work p_main p_work p_lines p_ended p_trace p_search p_waiting].
    - now rewrite lines_app, S2, app_nil_r.
    - rewrite h_main0. unfold greeted. rewrite lines_app, S2, app_nil_r. tauto.
    - now rewrite sent_app, S1, h_sent0, concat_app.
    - rewrite app_length. lia.
    - intros i ls J. apply AM. destruct (Nat.lt_ge_cases i (length ans)) as [X|X].
      + rewrite nth_error_app1 in J by exact X. auto.
      + rewrite nth_error_app2 in J by exact X. apply ND in J. now replace (length ans + (i - length ans))%nat with i in J by lia.
    - intros j it J. assert (J' : nth_error its (length done + j) = Some it) by (rewrite E, nth_error_app2; rewrite map_length; [|lia]; now replace (length done + j - length done)%nat with j by lia).
      specialize (h_its0 _ _ J'). rewrite app_length. replace (length ans + length done + j)%nat with (length ans + (length done + j))%nat by lia. destruct it; auto. destruct h_its0. auto.
    - reflexivity.
    - exact L.
    - rewrite in_app_iff. unfold b in O. split.
      + intros [J|J]; [tauto|]. apply O in J as [(l & J)|(_ & J)]; [discriminate|]. apply andb_prop in J as (J1 & J2). destruct its'; [auto|discriminate].
      + intros (E1 & E2). right. unfold es, b. rewrite E1, E2. cbn. apply in_app_iff. right. now left.
    - rewrite in_app_iff. split; [tauto|]. intros [J|J]; [tauto|]. apply O in J as [(l & J)|(J & _)]; discriminate.
    - intros a0 b0 X. unfold es in X. rewrite app_assoc in X. destruct b.
      + assert (Y : ~ In PStop (p_trace p ++ map PSent (concat done))) by (rewrite in_app_iff, in_map_iff; intros [Z|(l & Z & _)]; [auto|discriminate]).
        apply app_eq_app in X. destruct X as (l & [(X & X')|(X & X')]).
        * destruct l as [|e l]; [injection X' as X'; subst b0; split; [reflexivity|intros []]|]. injection X' as <- X'. exfalso. apply Y. rewrite X. apply in_app_iff. right. now left.
        * destruct l as [|e l]; [injection X' as X'; subst b0; split; [reflexivity|intros []]|]. cbn in X'. injection X' as _ X'. now destruct l.
      + exfalso. rewrite app_nil_r in X. assert (Z : In PStop (p_trace p ++ map PSent (concat done))) by (rewrite X; apply in_app_iff; right; now left).
        apply in_app_iff in Z as [Z|Z]; [auto|]. apply in_map_iff in Z as (l & Z & _). discriminate.
    - intros m. change (out _ hand) with (out p hand). rewrite <- h_wait0, E, in_app_iff. split; [tauto|]. intros [J|J]; [|exact J]. apply in_map_iff in J as (l & J & _). discriminate.
    - exact h_nodup0.
    - intros n q J. destruct (h_search0 n q J) as (A & B & C). rewrite settled_app, searched_app, Q1, Q2, !app_nil_r. auto using about_mono.
    - intros n q J. destruct (h_waiting0 n q J) as (A & B & C). rewrite settled_app, searched_app, Q1, Q2, !app_nil_r. auto using about_mono.
    - now rewrite settled_app, searched_app, Q1, Q2, !app_nil_r.
    - intros x J. apply in_app_iff in J as [J|J]; [|apply O in J as [(l & J)|(J & _)]; discriminate]. destruct (h_exc0 x J) as (c & Jc). exists c. apply in_app_iff. now left.
    - intros n f at_ J. apply in_app_iff in J as [J|J]; [|apply O in J as [(l & J)|(J & _)]; discriminate]. destruct (h_ps0 _ _ _ J) as (q & A & X). exists q. split; [now apply about_mono|exact X].
    - intros n x J. apply in_app_iff in J as [J|J]; [|apply O in J as [(l & J)|(J & _)]; discriminate]. destruct (h_ref0 _ _ J) as (q & A & X). exists q. split; [now apply about_mono|now apply reason_mono].
    - intros n r J. apply in_app_iff in J as [J|J]; [|apply O in J as [(l & J)|(J & _)]; discriminate]. rewrite searched_app. apply in_app_iff. left. eauto.
  Qed.
  Lemma put_app n ls its tl : In (WWait n) its -> put_item n ls (its ++ tl) = put_item n ls its ++ tl.
  Proof.
    induction its as [|i its IH]; intros J; [destruct J|]. destruct i as [m|l|]; cbn [app put_item]; [|destruct J as [J|J]; [discriminate|]; now rewrite IH..].
    destruct (Nat.eqb_spec m n); [reflexivity|]. destruct J as [J|J]; [congruence|]. now rewrite IH.
  Qed.
  Lemma put_length n ls its : length (put_item n ls its) = length its.
  Proof. induction its as [|[m| |] its IH]; cbn [put_item]; auto; [destruct (Nat.eqb m n)|..]; cbn [length]; auto. Qed.
  (** The element that is filled *)
  Lemma put_nth n ls k : forall its j it, (forall j m, nth_error its j = Some (WWait m) -> m = (k + j)%nat) -> nth_error (put_item n ls its) j = Some it ->
    (it = WDone ls /\ n = (k + j)%nat) \/ (nth_error its j = Some it /\ it <> WWait n).
  Proof.
    intros its. revert k. induction its as [|i its IH]; intros k j it H J; [destruct j; discriminate|].
    assert (H' : forall j m, nth_error its j = Some (WWait m) -> m = (S k + j)%nat) by (intros j' m Jm; specialize (H (S j') m Jm); lia).
    destruct i as [m|l|]; cbn [put_item] in J.
    - destruct (Nat.eqb_spec m n) as [->|N].
      + destruct j as [|j]; cbn [nth_error] in *; [injection J as <-; left; specialize (H 0%nat n eq_refl); auto|].
        right. split; [exact J|]. intros ->. specialize (H' _ _ J). specialize (H 0%nat n eq_refl). lia.
      + destruct j as [|j]; cbn [nth_error] in *; [injection J as <-; right; split; [reflexivity|congruence]|]. destruct (IH (S k) j it H' J) as [(X & Y)|X]; [left; split; [exact X|lia]|now right].
    - destruct j as [|j]; cbn [nth_error] in *; [injection J as <-; right; split; [reflexivity|discriminate]|]. destruct (IH (S k) j it H' J) as [(X & Y)|X]; [left; split; [exact X|lia]|now right].
    - destruct j as [|j]; cbn [nth_error] in *; [injection J as <-; right; split; [reflexivity|discriminate]|]. destruct (IH (S k) j it H' J) as [(X & Y)|X]; [left; split; [exact X|lia]|now right].
  Qed.
  Lemma put_other n ls m its : m <> n -> In (WWait m) its -> In (WWait m) (put_item n ls its).
  Proof.
    intros N. induction its as [|i its IH]; intros J; [destruct J|]. destruct i as [k|l|]; cbn [put_item].
    - destruct (Nat.eqb_spec k n) as [->|Nk]; (destruct J as [J|J]; [|right; auto]); [congruence|left; exact J].
    - destruct J as [J|J]; [discriminate|right; auto].
    - destruct J as [J|J]; [discriminate|right; auto].
  Qed.
  Lemma completes p n hand ans its ls : INV p (n :: hand) ans its -> answer (p_trace p) n ls -> ls <> [] -> exists ans' its', INV (completed n ls p) hand ans' its'.
  Proof.
    intros I A N. unfold completed. apply worked with (ans := ans) (its := put_item n ls its). destruct I.
    assert (Jn : In (WWait n) its) by (apply i_wait0; unfold out; rewrite !in_app_iff; right; right; now left).
    assert (PW : forall j m, nth_error its j = Some (WWait m) -> m = (length ans + j)%nat) by (intros j m J; exact (i_its0 j _ J)).
    assert (ON : ~ In n (out p hand) /\ NoDup (out p hand)).
    { unfold out in *. rewrite app_assoc in *. split; [now apply NoDup_remove_2|now apply NoDup_remove_1 with (a := n)]. }
    constructor; cbn [set_work p_main p_work p_lines p_ended p_trace p_search p_waiting]; auto.
    - now rewrite put_length.
    - intros j it J. destruct (put_nth n ls (length ans) its j it PW J) as [(-> & E)|(J' & _)]; [rewrite <- E; auto|exact (i_its0 j it J')].
    - rewrite i_work0. destruct its as [|i its]; [destruct Jn|]. now rewrite put_app by exact Jn.
    - rewrite i_stop0. intros (_ & ->). destruct Jn.
    - intros m. change (out _ hand) with (out p hand). split.
      + intros J. apply In_nth_error in J as (j & J). destruct (put_nth n ls (length ans) its j _ PW J) as [(X & _)|(J' & X)]; [discriminate|]. apply nth_error_In in J'. apply i_wait0 in J'. unfold out in *. rewrite !in_app_iff in *. cbn [In] in J'.
        destruct J' as [J'|[J'|[J'|J']]]; auto. congruence.
      + intros J. apply put_other; [intros ->; tauto|]. apply i_wait0. unfold out in *. rewrite !in_app_iff in *. cbn [In]. tauto.
    - tauto.
  Qed.

  Lemma nodup_tail (l l' : list nat) : NoDup (l ++ l') -> NoDup l'.
  Proof. induction l as [|x l IH]; cbn; [auto|]. intros H. inversion H. auto. Qed.
  (** ** Answers *)
  Lemma got_values k e : (exists fs, get_strings (PStr k) = Ok fs) -> exists vs, get_values lower (PStr k) e = Ok vs.
  Proof. intros (fs & E). unfold get_values, find_key. rewrite E. cbn [bind]. eauto. Qed.
  Lemma values_spec f vs : match value_lines f vs with
    | Ok ls => exists ss, vs = map PStr ss /\ ls = map f ss
    | Err x => x = EType /\ exists b, In (PBytes b) vs end.
  Proof.
    induction vs as [|[v|b] vs IH]; cbn [value_lines].
    - now exists [].
    - destruct (value_lines f vs) as [ls|x]; cbn [bind].
      + destruct IH as (ss & -> & ->). now exists (v :: ss).
      + destruct IH as (-> & b & J). split; [reflexivity|]. exists b. now right.
    - split; [reflexivity|]. exists b. now left.
  Qed.
  Lemma entries_spec k f es : (exists fs, get_strings (PStr k) = Ok fs) -> match entry_lines lower k f es with
    | Ok ls => exists vss, Forall2 (fun e vs => has_values lower k e (map PStr vs)) es vss /\ ls = map f (concat vss)
    | Err x => x = EType /\ exists e vs b, In e es /\ has_values lower k e vs /\ In (PBytes b) vs end.
  Proof.
    intros K. induction es as [|e es IH]; cbn [entry_lines]; [exists []; split; [constructor|reflexivity]|].
    destruct (got_values k e K) as (vs & E). rewrite E. cbn [bind]. pose proof (values_spec f vs) as V. destruct (value_lines f vs) as [ls|x]; cbn [bind].
    - destruct V as (ss & -> & ->). destruct (entry_lines lower k f es) as [ls'|x]; cbn [bind].
      + destruct IH as (vss & F & ->). exists (ss :: vss). split; [constructor; auto|]. cbn [concat]. now rewrite map_app.
      + destruct IH as (-> & e' & vs' & b & J & H & Jb). split; [reflexivity|]. exists e', vs', b. split; [now right|auto].
    - destruct V as (-> & b & J). split; [reflexivity|]. exists e, vs, b. split; [now left|auto].
  Qed.
  Lemma got_spec q es : match got lower domain q es with Ok ls => records lower domain q es ls | Err x => x = EType /\ octets lower q es end.
  Proof.
    unfold got. destruct q as [qname qclass cn|qname qclass ip].
    - pose proof (entries_spec (S_ "ipHostNumber") (fun ip => data_line qname qclass (S_ "A") ip) es ltac:(eexists; vm_compute; reflexivity)) as H.
      destruct (entry_lines lower _ _ es) as [ls|x]; cbn [bind]; [|exact H]. destruct H as (vss & F & ->). exists vss. split; [exact F|]. reflexivity.
    - pose proof (entries_spec (S_ "cn") (fun cn => data_line qname qclass (S_ "PTR") (cn ++ S_ "." ++ domain ++ S_ ".")) es ltac:(eexists; vm_compute; reflexivity)) as H.
      destruct (entry_lines lower _ _ es) as [ls|x]; cbn [bind]; [|exact H]. destruct H as (vss & F & ->). exists vss. split; [exact F|]. reflexivity.
  Qed.
  Lemma failure_fails x : failure traceback x = fails traceback x. Proof. reflexivity. Qed.
  Lemma fails_some x : fails traceback x <> []. Proof. unfold fails. intros X. now apply app_eq_nil in X. Qed.

  (** ** The steps *)
  Lemma refuses p n hand ans its q x : INV p (n :: hand) ans its -> about (p_trace p) n q -> ~ In n (settled (p_trace p)) -> reason (p_trace p) n q x ->
    exists ans' its', INV (failed n x (emit [PRefused n x] p)) hand ans' its'.
  Proof.
    intros I A N R. unfold PdnsModel.failed. apply completes with (ans := ans) (its := its); [|apply answer_refused with (q := q)|apply fails_some].
    - apply emitted; auto.
      + repeat constructor.
      + intros m [<-|[]]. split; [now left|exact N].
      + intros m [].
      + repeat constructor. intros [].
      + constructor.
      + intros y [X|[]]. discriminate.
      + intros m f at_ [X|[]]. discriminate.
      + intros m y [X|[]]. injection X as <- <-. exists q. split; [exact A|now apply reason_mono].
      + intros m r [X|[]]. discriminate.
    - now apply about_mono.
    - cbn [emit p_trace]. apply in_app_iff. right. now left.
  Qed.
  Lemma founds p n hand ans its q r : INV p (n :: hand) ans its -> about (p_trace p) n q -> ~ In n (settled (p_trace p)) -> In n (searched (p_trace p)) ->
    exists ans' its', INV (found n q r p) hand ans' its'.
  Proof.
    intros I A N SN. unfold PdnsModel.found. cbv zeta.
    assert (I' : INV (emit [PFound n r] p) (n :: hand) ans its).
    { apply emitted; auto.
      - repeat constructor.
      - intros m [<-|[]]. split; [now left|exact N].
      - intros m [].
      - repeat constructor. intros [].
      - constructor.
      - intros y [X|[]]. discriminate.
      - intros m f at_ [X|[]]. discriminate.
      - intros m y [X|[]]. discriminate.
      - intros m y [X|[]]. now injection X as <- <-. }
    assert (A' : about (p_trace (emit [PFound n r] p)) n q) by (now apply about_mono).
    assert (J : In (PFound n r) (p_trace (emit [PFound n r] p))) by (cbn [emit p_trace]; apply in_app_iff; right; now left).
    destruct r as [es|x].
    - pose proof (got_spec q es) as G. destruct (got lower domain q es) as [ls|x].
      + apply completes with (1 := I'); [now apply answer_found with (q := q) (es := es)|]. destruct G as (vss & _ & ->). intros X. now apply app_eq_nil in X.
      + destruct G as (-> & G). apply completes with (1 := I'); [now apply answer_octets with (q := q) (es := es)|apply fails_some].
    - apply completes with (1 := I'); [now apply answer_failed with (q := q)|apply fails_some].
  Qed.
  Lemma perm_hand (a b c : list nat) n : Permutation (a ++ b ++ n :: c) ((a ++ [n]) ++ b ++ c).
  Proof. rewrite <- app_assoc. apply Permutation_app_head. cbn [app]. symmetry. apply Permutation_middle. Qed.
  Lemma searches p n hand ans its q soon : INV p (n :: hand) ans its -> about (p_trace p) n q -> ~ In n (settled (p_trace p)) -> ~ In n (searched (p_trace p)) ->
    exists ans' its', INV (search soon n q p) hand ans' its'.
  Proof.
    intros I A N N'. unfold PdnsModel.search. change (filter_text q) with (text_of q). destruct (parse_filter depth (PStr (text_of q))) as [f|x] eqn:E.
    - cbv zeta. assert (EA : search_attrs q = [asked_for q]) by (destruct q; reflexivity).
      assert (I' : INV (emit [PSearch n f (search_attrs q)] p) (n :: hand) ans its).
      { apply emitted; auto.
        - repeat constructor.
        - intros m [].
        - intros m [<-|[]]. split; [now left|exact N'].
        - constructor.
        - repeat constructor. intros [].
        - intros y [X|[]]. discriminate.
        - intros m g at_ [X|[]]. injection X as <- <- <-. exists q. auto.
        - intros m y [X|[]]. discriminate.
        - intros m y [X|[]]. discriminate. }
      assert (A' : about (p_trace (emit [PSearch n f (search_attrs q)] p)) n q) by (now apply about_mono).
      assert (N2 : ~ In n (settled (p_trace (emit [PSearch n f (search_attrs q)] p)))) by (cbn [emit p_trace]; rewrite settled_app; cbn; now rewrite app_nil_r).
      destruct (soon n) as [r|].
      { apply founds with (1 := I'); auto. cbn [emit p_trace]. rewrite searched_app. apply in_app_iff. right. now left. }
      exists ans, its. apply reshape with (1 := I'); try reflexivity.
      + unfold out. cbn [emit set_search p_search p_waiting]. rewrite map_app. apply perm_hand.
      + cbn [set_search p_search]. intros m q' J. apply in_app_iff in J as [J|[J|[]]]; [exact (i_search _ _ _ _ I' m q' J)|]. injection J as <- <-. split; [exact A'|]. split; [exact N2|].
        cbn [emit p_trace]. rewrite searched_app. apply in_app_iff. right. now left.
      + exact (i_waiting _ _ _ _ I').
    - apply refuses with (ans := ans) (its := its) (q := q); auto. right. now left.
  Qed.

  (** What the steps of a line leave as it is *)
  Record same (p p' : pdns) : Prop := mkSame {
    s_entry : p_entry p' = p_entry p; s_fetching : p_fetching p' = p_fetching p; s_pending : p_pending p' = p_pending p;
    s_waiting : p_waiting p' = p_waiting p }.
  Lemma same_refl p : same p p. Proof. constructor; reflexivity. Qed.
  Lemma same_trans p q r : same p q -> same q r -> same p r. Proof. intros [] []. constructor; congruence. Qed.
  Lemma same_emit es p : same p (emit es p). Proof. constructor; reflexivity. Qed.
  Lemma same_completed n ls p : same p (completed n ls p).
  Proof. unfold completed, work. destruct (do_work _). constructor; reflexivity. Qed.
  Lemma same_found n q r p : same p (found n q r p).
  Proof. unfold PdnsModel.found, PdnsModel.failed. cbv zeta. eapply same_trans; [apply same_emit|]. destruct r as [es|x]; [destruct (got _ _ q es)|]; apply same_completed. Qed.
  Lemma same_search soon n q p : same p (search soon n q p).
  Proof.
    unfold PdnsModel.search, PdnsModel.failed. cbv zeta. destruct (parse_filter _ _) as [f|x].
    - destruct (soon n) as [r|]; [eapply same_trans; [apply same_emit|apply same_found]|]. constructor; reflexivity.
    - eapply same_trans; [apply same_emit|apply same_completed].
  Qed.

  Lemma calls soon : forall ws p hand ans its, p_waiting p = ws -> INV p hand ans its -> exists ans' its', INV (call_all soon ws p) hand ans' its'.
  Proof.
    induction ws as [|(n & [q|]) ws IH]; intros p hand ans its E I; cbn [PdnsModel.call_all]; [eauto|..].
    - destruct (i_waiting _ _ _ _ I n q) as (A & N & N'); [rewrite E; now left|].
      assert (I' : INV (set_waiting ws p) (n :: hand) ans its).
      { apply reshape with (1 := I); try reflexivity.
        - unfold out. cbn [set_waiting p_search p_waiting]. rewrite E. cbn [alive flat_map fst snd app]. apply Permutation_app_head. fold (alive ws). apply Permutation_middle.
        - exact (i_search _ _ _ _ I).
        - cbn [set_waiting p_waiting]. intros m q' J. apply (i_waiting _ _ _ _ I). rewrite E. now right. }
      destruct (searches _ _ _ _ _ q soon I' A N N') as (ans1 & its1 & I1). apply (IH _ hand ans1 its1); [|exact I1]. now rewrite (s_waiting _ _ (same_search soon n q _)).
    - apply (IH _ hand ans its); [reflexivity|]. apply reshape with (1 := I); try reflexivity.
      + unfold out. cbn [set_waiting p_search p_waiting]. now rewrite E.
      + exact (i_search _ _ _ _ I).
      + cbn [set_waiting p_waiting]. intros m q' J. apply (i_waiting _ _ _ _ I). rewrite E. now right.
  Qed.
  Lemma calls_same soon : forall ws p, p_waiting p = ws -> let p' := call_all soon ws p in
    p_entry p' = p_entry p /\ p_fetching p' = p_fetching p /\ p_pending p' = p_pending p /\ p_waiting p' = [].
  Proof.
    induction ws as [|(n & q) ws IH]; intros p E; cbn [PdnsModel.call_all]; [auto|]. cbv zeta in *.
    set (p1 := match q with Some q => search soon n q (set_waiting ws p) | None => set_waiting ws p end).
    assert (S1 : same (set_waiting ws p) p1) by (unfold p1; destruct q; [apply same_search|apply same_refl]). destruct S1.
    destruct (IH p1) as (A & B & C & D); [now rewrite s_waiting0|]. rewrite A, B, C, D, s_entry0, s_fetching0, s_pending0. auto.
  Qed.
  Lemma settled_completed n ls p m : In m (settled (p_trace (completed n ls p))) <-> In m (settled (p_trace p)).
  Proof.
    unfold completed, work. destruct (do_work _) as (w & es) eqn:E. cbn [emit set_work p_trace]. rewrite settled_app, in_app_iff. split; [|tauto]. intros [J|J]; [exact J|]. exfalso.
    cbn [set_work p_work] in E. revert w es E J. generalize (put_item n ls (p_work p)) as l. induction l as [|i l IH]; intros w es E J; cbn [do_work] in E; [injection E as <- <-; destruct J|].
    destruct i as [k|[|x xs]|]; [injection E as <- <-; destruct J|injection E as <- <-; destruct J| |].
    - destruct (do_work l) as (w' & es') eqn:E'. injection E as <- <-. apply (IH _ _ eq_refl). change (PSent x :: map PSent xs ++ es') with (map PSent (x :: xs) ++ es') in J. rewrite settled_app in J. apply in_app_iff in J as [J|J]; [|exact J].
      exfalso. assert (X : settled (map PSent (x :: xs)) = []) by (generalize (x :: xs) as l0; induction l0; auto). now rewrite X in J.
    - destruct l; [cbn in E; injection E as <- <-|injection E as <- <-]; destruct J as [].
  Qed.
  Lemma trace_more n ls p e : In e (p_trace p) -> In e (p_trace (completed n ls p)).
  Proof. unfold completed, work. destruct (do_work _) as (w & es). cbn [emit set_work p_trace]. rewrite in_app_iff. tauto. Qed.
  Lemma about_more n ls p m q : about (p_trace p) m q -> about (p_trace (completed n ls p)) m q.
  Proof. unfold completed, work. destruct (do_work _) as (w & es). cbn [emit set_work p_trace]. apply about_mono. Qed.
  Lemma fails_all x : forall ws p hand ans its, INV p (alive ws ++ hand) ans its -> In (PNoEntry x) (p_trace p) ->
    (forall n q, In (n, Some q) ws -> about (p_trace p) n q /\ ~ In n (settled (p_trace p))) ->
    exists ans' its', INV (fail_all x ws p) hand ans' its'.
  Proof.
    induction ws as [|(n & [q|]) ws IH]; intros p hand ans its I E H; cbn [PdnsModel.fail_all]; [eauto|..].
    - destruct (H n q) as (A & N); [now left|].
      destruct (refuses p n (alive ws ++ hand) ans its q x I A N) as (ans1 & its1 & I1); [right; right; now right|].
      apply (IH _ hand ans1 its1 I1).
      + apply trace_more. cbn [emit p_trace]. apply in_app_iff. now left.
      + intros m q' J. destruct (H m q') as (A' & N'); [now right|]. split; [apply about_more; cbn [emit p_trace]; now apply about_mono|].
        unfold PdnsModel.failed. rewrite settled_completed. cbn [emit p_trace]. rewrite settled_app, in_app_iff. intros [X|[<-|[]]]; [auto|].
        pose proof (i_nodup _ _ _ _ I) as ND. unfold out in ND. apply nodup_tail in ND. apply nodup_tail in ND. cbn [alive flat_map fst snd app] in ND. inversion ND as [|? ? X _]. apply X. apply in_app_iff. left. apply alive_in. eauto.
    - apply (IH _ hand ans its I E). intros m q' J. apply H. now right.
  Qed.
  Lemma fails_same x : forall ws p, same p (fail_all x ws p).
  Proof. induction ws as [|(n & [q|]) ws IH]; intros p; cbn [PdnsModel.fail_all]; [apply same_refl| |apply IH]. eapply same_trans; [|apply IH]. eapply same_trans; [apply same_emit|apply same_completed]. Qed.

  Lemma fetch_inv e f d p hand ans its : INV p hand ans its -> INV (set_fetch e f d p) hand ans its.
  Proof. intros I. apply reshape with (1 := I); try reflexivity; [exact (i_search _ _ _ _ I)|exact (i_waiting _ _ _ _ I)]. Qed.
  (** An event that is neither a line nor its answer *)
  Definition aside (e : ptev) : Prop := match e with PFetch | PRaised _ _ | PEntry _ | PNoEntry _ | PLost _ => True | _ => False end.
  Lemma asides p hand ans its e : INV p hand ans its -> aside e -> INV (emit [e] p) hand ans its.
  Proof.
    intros I Ae. apply emitted; auto.
    - constructor; [|constructor]. destruct e; try (destruct Ae); exact Logic.I.
    - intros n J. destruct e; try (destruct Ae); destruct J.
    - intros n J. destruct e; try (destruct Ae); destruct J.
    - destruct e; try (destruct Ae); constructor.
    - destruct e; try (destruct Ae); constructor.
    - intros x [->|[]]. destruct Ae.
    - intros n f at_ [->|[]]. destruct Ae.
    - intros n x [->|[]]. destruct Ae.
    - intros n x [->|[]]. destruct Ae.
  Qed.
  Lemma no_entry x p hand ans its : INV p hand ans its -> exists ans' its', INV (eb_entry x p) hand ans' its'.
  Proof.
    intros I. unfold PdnsModel.eb_entry. cbv zeta. set (p1 := emit [PNoEntry x] (set_fetch (p_entry p) false false p)).
    assert (I1 : INV p1 hand ans its) by (apply asides; [now apply fetch_inv|exact Logic.I]).
    apply fails_all with (ans := ans) (its := its).
    - apply reshape with (1 := I1); try reflexivity; [exact (i_search _ _ _ _ I1)|intros ? ? []].
    - cbn [set_waiting p1 emit p_trace]. apply in_app_iff. right. now left.
    - intros n q J. destruct (i_waiting _ _ _ _ I1 n q J) as (A & B & _). auto.
  Qed.
  Lemma has_entry soon c p hand ans its : INV p hand ans its -> exists ans' its', INV (cb_entry soon c p) hand ans' its'.
  Proof.
    intros I. unfold PdnsModel.cb_entry. cbv zeta. destruct (p_entry (set_fetch _ _ _ p)); [apply no_entry with (ans := ans) (its := its); now apply fetch_inv|].
    apply calls with (ans := ans) (its := its); [reflexivity|]. apply asides; [|exact Logic.I]. now apply fetch_inv, fetch_inv.
  Qed.
  Lemma emit_two a b p : emit [a; b] p = emit [b] (emit [a] p).
  Proof. unfold emit. cbn. now rewrite <- app_assoc. Qed.
  Lemma forget_app ws n q : forget_last (ws ++ [(n, q)]) = ws ++ [(n, None)].
  Proof. induction ws as [|(m & r) ws IH]; [reflexivity|]. cbn [app forget_last]. rewrite IH. now destruct ws. Qed.
  Lemma gets m soon n q p hand ans its : INV p (n :: hand) ans its -> about (p_trace p) n q -> ~ In n (settled (p_trace p)) -> ~ In n (searched (p_trace p)) ->
    exists ans' its', INV (get_entry m soon n q p) hand ans' its'.
  Proof.
    intros I A N N'. unfold PdnsModel.get_entry. destruct (p_entry p) as [c|] eqn:EE; [eapply searches; eauto|].
    destruct (10 <? length (p_waiting p))%nat; [apply refuses with (ans := ans) (its := its) (q := q); auto; now left|]. cbv zeta.
    assert (I1 : INV (set_waiting (p_waiting p ++ [(n, Some q)]) p) hand ans its).
    { apply reshape with (1 := I); try reflexivity.
      - unfold out. cbn [set_waiting p_search p_waiting]. rewrite alive_app. cbn [alive flat_map fst snd app]. apply Permutation_app_head. rewrite <- app_assoc. apply Permutation_app_head. reflexivity.
      - exact (i_search _ _ _ _ I).
      - cbn [set_waiting p_waiting]. intros k q' J. apply in_app_iff in J as [J|[J|[]]]; [exact (i_waiting _ _ _ _ I k q' J)|]. injection J as <- <-. auto. }
    destruct (p_fetching (set_waiting _ p)); [eauto|].
    assert (I2 : forall d, INV (emit [PFetch] (set_fetch (p_entry (set_waiting (p_waiting p ++ [(n, Some q)]) p)) true d (set_waiting (p_waiting p ++ [(n, Some q)]) p))) hand ans its) by (intros d; apply asides; [now apply fetch_inv|exact Logic.I]).
    destruct m as [|[c|x]|x]; [eauto|eapply has_entry; eauto|eapply no_entry; eauto|].
    assert (I3 : INV (emit [PRaised n x] (mkPdns (p_main p) (p_entry p) true false (p_waiting p ++ [(n, None)]) (p_search p) (p_work p) (p_lines p) (p_ended p) (p_trace p ++ [PFetch]))) (n :: hand) ans its).
    { apply asides; [|exact Logic.I]. assert (I4 : INV (emit [PFetch] p) (n :: hand) ans its) by (apply asides; [exact I|exact Logic.I]).
      apply reshape with (1 := I4); try reflexivity; [|exact (i_search _ _ _ _ I4)|].
      - unfold out. cbn [emit p_search p_waiting]. rewrite alive_app. cbn [alive flat_map fst snd app]. now rewrite app_nil_r.
      - cbn [p_waiting]. intros k q' J. apply in_app_iff in J as [J|[J|[]]]; [exact (i_waiting _ _ _ _ I4 k q' J)|discriminate]. }
    rewrite emit_two. match goal with |- exists ans' its', INV (failed n x (emit [PRefused n x] (emit [PRaised n x] ?P))) _ _ _ => set (p4 := P) end.
    assert (E4 : p4 = mkPdns (p_main p) (p_entry p) true false (p_waiting p ++ [(n, None)]) (p_search p) (p_work p) (p_lines p) (p_ended p) (p_trace p ++ [PFetch])).
    { unfold p4, set_waiting, set_fetch, emit. cbn [p_waiting p_entry p_trace p_main p_fetching p_pending p_search p_work p_lines p_ended]. now rewrite forget_app. }
    rewrite E4. apply refuses with (1 := I3) (q := q); cbn [emit p_trace].
    - rewrite <- app_assoc. now apply about_mono.
    - rewrite !settled_app. cbn. now rewrite !app_nil_r.
    - right. right. left. apply in_app_iff. right. now left.
  Qed.

  (** ** Lines, and the end of them *)
  Lemma line_bound p hand ans its n s : INV p hand ans its -> In (n, s) (lines (p_trace p)) -> (n < p_lines p)%nat.
  Proof. intros I J. apply (in_map fst) in J. rewrite (i_lines _ _ _ _ I) in J. apply in_seq in J. cbn [fst] in J. lia. Qed.
  Lemma searched_bound p hand ans its n : INV p hand ans its -> In n (searched (p_trace p)) -> (n < p_lines p)%nat.
  Proof. intros I J. apply searched_in in J as (f & at_ & J). destruct (i_ps _ _ _ _ I _ _ _ J) as (q & (s & Js & _) & _). eapply line_bound; eauto. Qed.
  Lemma settled_bound p hand ans its n : INV p hand ans its -> In n (settled (p_trace p)) -> (n < p_lines p)%nat.
  Proof.
    intros I J. apply settled_in in J as [(r & J)|(x & J)].
    - apply (i_found _ _ _ _ I) in J. eapply searched_bound; eauto.
    - destruct (i_ref _ _ _ _ I _ _ J) as (q & (s & Js & _) & _). eapply line_bound; eauto.
  Qed.
  Lemma out_bound p hand ans its n : INV p hand ans its -> In n (out p hand) -> (n < p_lines p)%nat.
  Proof.
    intros I J. apply (i_wait _ _ _ _ I) in J. apply In_nth_error in J as (j & J). pose proof (i_its _ _ _ _ I _ _ J) as E. cbn in E. rewrite <- (i_count _ _ _ _ I).
    assert (j < length its)%nat by (apply nth_error_Some; congruence). lia.
  Qed.
  Definition with_line (main : bool) (s : str) (p : pdns) : pdns :=
    mkPdns main (p_entry p) (p_fetching p) (p_pending p) (p_waiting p) (p_search p)
      (p_work p ++ [WWait (p_lines p)]) (S (p_lines p)) (p_ended p) (p_trace p ++ [PLine (p_lines p) s]).
  Lemma takes p ans its s (main : bool) : INV p [] ans its -> p_ended p = false -> (main = true <-> p_main p = true \/ s = hello) ->
    INV (with_line main s p) [p_lines p] ans (its ++ [WWait (p_lines p)]).
  Proof.
    intros I E M. assert (OB := fun n => out_bound _ _ _ _ n I). assert (QB := fun n => searched_bound _ _ _ _ n I). assert (SB := fun n => settled_bound _ _ _ _ n I). assert (LB := fun n t => line_bound _ _ _ _ n t I).
    assert (NP : ~ In PStop (p_trace p)) by (rewrite (i_stop _ _ _ _ I); intros (X & _); congruence).
    assert (LN : forall t, lines (t ++ [PLine (p_lines p) s]) = lines t ++ [(p_lines p, s)]) by (intros t; now rewrite lines_app).
    assert (AM : forall n ls, (n < p_lines p)%nat -> answer (p_trace p) n ls -> answer (p_trace p ++ [PLine (p_lines p) s]) n ls).
    { intros n ls L. apply answer_mono. intros m t [X|[]]. injection X as <- <-. lia. }
    destruct I. constructor; cbn [with_line p_main p_work p_lines p_ended p_trace p_search p_waiting].
    - rewrite LN, map_app, i_lines0. cbn [map fst]. now rewrite seq_S.
    - rewrite M, i_main0. unfold greeted. rewrite LN. split.
      + intros [(m & L & J)|Eq]; [exists m; split; [lia|apply in_app_iff; now left]|]. exists (p_lines p). split; [lia|]. apply in_app_iff. right. left. now rewrite Eq.
      + intros (m & L & J). apply in_app_iff in J as [J|[J|[]]]; [|injection J as <- <-; now right]. left. exists m. split; [exact (LB m hello J)|exact J].
    - rewrite sent_app. cbn. now rewrite app_nil_r.
    - rewrite app_length. cbn [length]. lia.
    - intros i ls J. apply AM; [|auto]. assert (i < length ans)%nat by (apply nth_error_Some; congruence). lia.
    - intros j it J. destruct (Nat.lt_ge_cases j (length its)) as [X|X].
      + rewrite nth_error_app1 in J by exact X. specialize (i_its0 _ _ J). destruct it; auto. destruct i_its0. split; [auto|]. apply AM; [lia|auto].
      + rewrite nth_error_app2 in J by exact X. destruct (j - length its)%nat as [|k] eqn:Ek; [|now destruct k]. cbn in J. injection J as <-. lia.
    - rewrite i_work0, E, !app_nil_r. reflexivity.
    - destruct its as [|[| |] its]; auto.
    - rewrite E, in_app_iff. split; [intros [J|[J|[]]]; [tauto|discriminate]|intros (X & _); discriminate].
    - rewrite i_end0, in_app_iff. split; [tauto|]. intros [J|[J|[]]]; [exact J|discriminate].
    - intros a b X. exfalso. assert (J : In PStop (p_trace p ++ [PLine (p_lines p) s])) by (rewrite X; apply in_app_iff; right; now left). apply in_app_iff in J as [J|[J|[]]]; [auto|discriminate].
    - intros m. change (out _ [p_lines p]) with (out p [p_lines p]). specialize (i_wait0 m). unfold out in *. rewrite !in_app_iff in *. rewrite i_wait0. cbn [In].
      assert ((WWait (p_lines p) = WWait m) <-> p_lines p = m) by (split; congruence). tauto.
    - unfold out in *. cbn [with_line p_search p_waiting]. rewrite app_nil_r in *. rewrite app_assoc. apply NoDup_app_; [exact i_nodup0|repeat constructor; intros []|]. intros m J [<-|[]]. apply OB in J. lia.
    - intros n q J. destruct (i_search0 n q J) as (A & B & C). rewrite settled_app, searched_app. cbn. rewrite !app_nil_r. split; [now apply about_mono|auto].
    - intros n q J. destruct (i_waiting0 n q J) as (A & B & C). rewrite settled_app, searched_app. cbn. rewrite !app_nil_r. split; [now apply about_mono|auto].
    - rewrite settled_app, searched_app. cbn. now rewrite !app_nil_r.
    - intros x J. apply in_app_iff in J as [J|[J|[]]]; [|discriminate]. destruct (i_exc0 x J) as (c & Jc). exists c. apply in_app_iff. now left.
    - intros n f at_ J. apply in_app_iff in J as [J|[J|[]]]; [|discriminate]. destruct (i_ps0 _ _ _ J) as (q & A & X). exists q. split; [now apply about_mono|exact X].
    - intros n x J. apply in_app_iff in J as [J|[J|[]]]; [|discriminate]. destruct (i_ref0 _ _ J) as (q & A & X). exists q. split; [now apply about_mono|now apply reason_mono].
    - intros n r J. apply in_app_iff in J as [J|[J|[]]]; [|discriminate]. rewrite searched_app. apply in_app_iff. left. eauto.
  Qed.
  Lemma immediate_some main s ls : immediate domain argv0 repr main s ls -> ls <> [].
  Proof. intros H. destruct H; discriminate. Qed.
  Lemma received p ans its s m soon : INV p [] ans its -> p_ended p = false -> exists ans' its', INV (line_received lower depth domain argv0 repr traceback s m soon p) [] ans' its'.
  Proof.
    intros I E. unfold line_received. pose proof (handle_spec domain argv0 repr (p_main p) s) as H. destruct (handle domain argv0 repr (p_main p) s) as (main & r). destruct H as (M & H).
    change (mkPdns main _ _ _ _ _ _ _ _ _) with (with_line main s p). pose proof (takes p ans its s main I E M) as I1.
    assert (L : lines (p_trace (with_line main s p)) = lines (p_trace p) ++ [(p_lines p, s)]) by (cbn [with_line p_trace]; now rewrite lines_app).
    assert (JL : In (p_lines p, s) (lines (p_trace (with_line main s p)))) by (rewrite L; apply in_app_iff; right; now left).
    assert (G : greeted (p_trace (with_line main s p)) (p_lines p) <-> p_main p = true).
    { rewrite (i_main _ _ _ _ I). unfold greeted. rewrite L. split; intros (k & Lk & Jk); exists k; (split; [exact Lk|]); [|apply in_app_iff; now left]. apply in_app_iff in Jk as [Jk|[Jk|[]]]; [exact Jk|]. injection Jk as <- <-. lia. }
    destruct r as [ls|q].
    - destruct H as (H & _). eapply completes; [exact I1| |eapply immediate_some; eauto]. apply answer_now with (main := p_main p) (s := s); auto. now rewrite G.
    - destruct H as (H1 & H2). eapply gets; [exact I1|..].
      + exists s. rewrite G. auto.
      + cbn [with_line p_trace]. rewrite settled_app. cbn. rewrite app_nil_r. intros J. apply (settled_bound _ _ _ _ _ I) in J. lia.
      + cbn [with_line p_trace]. rewrite searched_app. cbn. rewrite app_nil_r. intros J. apply (searched_bound _ _ _ _ _ I) in J. lia.
  Qed.
  Lemma ends p ans its : INV p [] ans its -> p_ended p = false -> exists ans' its', INV (input_lost p) [] ans' its'.
  Proof.
    intros I E. unfold input_lost. apply worked with (ans := ans) (its := its). assert (NP : ~ In PStop (p_trace p)) by (rewrite (i_stop _ _ _ _ I); intros (X & _); congruence).
    destruct I. assert (LN : lines (p_trace p ++ [PEnd]) = lines (p_trace p)) by (rewrite lines_app; cbn; now rewrite app_nil_r).
    assert (AM : forall n ls, answer (p_trace p) n ls -> answer (p_trace p ++ [PEnd]) n ls) by (intros n ls; apply answer_mono; intros ? ? []).
    constructor; cbn [p_main p_work p_lines p_ended p_trace p_search p_waiting]; auto.
    - now rewrite LN.
    - unfold greeted. now rewrite LN.
    - rewrite sent_app. cbn. now rewrite app_nil_r.
    - intros j it J. specialize (i_its0 j it J). destruct it; auto. destruct i_its0. auto.
    - rewrite i_work0, E, app_nil_r. reflexivity.
    - rewrite in_app_iff. intros [J|[J|[]]]; [auto|discriminate].
    - split; [|reflexivity]. intros _. apply in_app_iff. right. now left.
    - intros n q J. destruct (i_search0 n q J) as (A & B & C). rewrite settled_app, searched_app. cbn. rewrite !app_nil_r. split; [now apply about_mono|auto].
    - intros n q J. destruct (i_waiting0 n q J) as (A & B & C). rewrite settled_app, searched_app. cbn. rewrite !app_nil_r. split; [now apply about_mono|auto].
    - rewrite settled_app, searched_app. cbn. now rewrite !app_nil_r.
    - intros x J. apply in_app_iff in J as [J|[J|[]]]; [|discriminate]. destruct (i_exc0 x J) as (c & Jc). exists c. apply in_app_iff. now left.
    - intros n f at_ J. apply in_app_iff in J as [J|[J|[]]]; [|discriminate]. destruct (i_ps0 _ _ _ J) as (q & A & X). exists q. split; [now apply about_mono|exact X].
    - intros n x J. apply in_app_iff in J as [J|[J|[]]]; [|discriminate]. destruct (i_ref0 _ _ J) as (q & A & X). exists q. split; [now apply about_mono|now apply reason_mono].
    - intros n r J. apply in_app_iff in J as [J|[J|[]]]; [|discriminate]. rewrite searched_app. apply in_app_iff. left. eauto.
  Qed.
  Lemma loses p c ans its : INV p [] ans its -> INV (lost_client c p) [] ans its.
  Proof.
    intros I. assert (I1 : INV (emit [PLost c] p) [] ans its) by (apply asides; [exact I|exact Logic.I]). unfold lost_client. cbv zeta.
    assert (X : INV (emit [PExc EAssert] (emit [PLost c] p)) [] ans its).
    { apply emitted; auto; try (constructor; fail); try (intros ? []; fail).
      - repeat constructor.
      - intros x _. exists c. cbn [emit p_trace]. rewrite !in_app_iff. left. right. now left.
      - intros n f at_ [J|[]]. discriminate.
      - intros n x [J|[]]. discriminate.
      - intros n r [J|[]]. discriminate. }
    destruct (p_entry (emit [PLost c] p)) as [d|]; [|exact X]. destruct (Nat.eqb d c); [|exact X]. now apply fetch_inv.
  Qed.
  Lemma asked_in n l q : asked n l = Some q -> In (n, q) l.
  Proof. induction l as [|(m & r) l IH]; cbn [asked]; [discriminate|]. destruct (Nat.eqb_spec m n) as [->|]; [intros X; injection X as <-; now left|right; auto]. Qed.
  Lemma takes_out n q l : NoDup (map fst l) -> In (n, q) l -> Permutation (map fst l) (n :: map fst (filter (fun x : nat * question => negb (Nat.eqb (fst x) n)) l)).
  Proof.
    induction l as [|(m & r) l IH]; intros N J; [destruct J|]. cbn [map fst filter] in *. inversion N as [|? ? N1 N2]; subst.
    destruct (Nat.eqb_spec m n) as [->|D]; cbn [negb].
    - constructor. assert (X : filter (fun x : nat * question => negb (Nat.eqb (fst x) n)) l = l); [|now rewrite X].
      clear IH J N N2. induction l as [|(k & t) l IH]; [reflexivity|]. cbn [filter fst]. cbn [map fst In] in N1. destruct (Nat.eqb_spec k n) as [->|]; [tauto|]. cbn [negb]. now rewrite IH by tauto.
    - destruct J as [J|J]; [congruence|]. cbn [map fst]. rewrite (IH N2 J). apply perm_swap.
  Qed.
  Lemma nodup_head (l l' : list nat) : NoDup (l ++ l') -> NoDup l.
  Proof. induction l as [|x l IH]; cbn; [constructor|]. intros H. inversion H as [|? ? A B]. constructor; [|auto]. intros J. apply A. apply in_app_iff. now left. Qed.
  Lemma stepped p e ans its : INV p [] ans its -> exists ans' its', INV (step p e) [] ans' its'.
  Proof.
    intros I. destruct e as [s m soon|c soon|x|n r|c|]; cbn [PdnsModel.step].
    - destruct (p_ended p) eqn:E; [eauto|]. eapply received; eauto.
    - destruct (p_pending p); [|eauto]. eapply has_entry; eauto.
    - destruct (p_pending p); [|eauto]. eapply no_entry; eauto.
    - destruct (asked n (p_search p)) as [q|] eqn:E; [|eauto]. apply asked_in in E. destruct (i_search _ _ _ _ I _ _ E) as (A & B & C).
      eapply founds; [|exact A|exact B|exact C].
      apply reshape with (1 := I); try reflexivity.
      + unfold out. cbn [set_search p_search p_waiting]. pose proof (i_nodup _ _ _ _ I) as N. unfold out in N. apply nodup_head in N. rewrite (takes_out n q (p_search p) N E) at 1. rewrite app_nil_r. cbn [app].
        rewrite app_assoc. apply Permutation_cons_append.
      + cbn [set_search p_search]. intros m q' J. apply filter_In in J as (J & _). exact (i_search _ _ _ _ I m q' J).
      + exact (i_waiting _ _ _ _ I).
    - exists ans, its. now apply loses.
    - destruct (p_ended p) eqn:E; [eauto|]. eapply ends; eauto.
  Qed.
  Lemma inv_0 : INV pdns_0 [] [] [].
  Proof.
    constructor; try reflexivity.
    - split; [discriminate|]. intros (m & L & _). cbn in L. lia.
    - intros i ls J. destruct i; discriminate.
    - intros i ls J. destruct i; discriminate.
    - cbn. split; [intros []|intros (X & _); discriminate].
    - cbn. split; [discriminate|intros []].
    - intros a b X. destruct a; discriminate.
    - constructor.
    - intros ? ? [].
    - intros ? ? [].
    - split; constructor.
    - intros ? [].
    - intros ? ? ? [].
    - intros ? ? [].
    - intros ? ? [].
  Qed.
  Lemma runs evs : exists ans its, INV (run evs) [] ans its.
  Proof.
    unfold PdnsModel.run. assert (G : forall l p ans its, INV p [] ans its -> exists ans' its', INV (fold_left step l p) [] ans' its').
    { induction l as [|e l IH]; intros p ans its I; cbn [fold_left]; [eauto|]. destruct (stepped p e ans its I) as (a & i & I'). eauto. }
    apply (G evs pdns_0 [] []). apply inv_0.
  Qed.
End Proofs.
