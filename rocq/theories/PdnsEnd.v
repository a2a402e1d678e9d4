(** What follows from the invariants of PdnsProofs and PdnsFetch for a whole run. *)
From Verif Require Import Base BaseFacts Utf8Model DnModel EntryModel FilterTextModel UtilModel ToolsModel PdnsModel PdnsSpec PdnsText PdnsProofs PdnsFetch.

Section End_.
  Variable lower : str -> str.
  Variable depth : nat.
  Variable domain : str.
  Variable argv0 : str.
  Variable repr : str -> str.
  Variable traceback : exn -> list str.
  Notation answer := (answer lower domain argv0 repr traceback).
  Notation about := (about domain).
  Notation step := (step lower depth domain argv0 repr traceback).
  Notation run := (run lower depth domain argv0 repr traceback).
  Notation INV := (INV lower depth domain argv0 repr traceback).

  Lemma run_input evs : (forall n s, In (n, s) (lines (p_trace (run evs))) <-> nth_error (input_lines evs) n = Some s) /\ p_lines (run evs) = length (input_lines evs).
  Proof.
    destruct (runs lower depth domain argv0 repr traceback evs) as (ans & its & I). destruct (run_lines lower depth domain argv0 repr traceback evs) as (E & _). pose proof (i_lines _ _ _ _ _ _ _ _ _ _ I) as L. clear I.
    rewrite <- E. clear E. revert L. generalize (lines (p_trace (run evs))) as l. generalize (p_lines (run evs)) as k. intros k l L.
    assert (G : forall (l : list (nat * str)) a k, map fst l = seq a k -> (forall n s, In (n, s) l <-> (a <= n)%nat /\ nth_error (map snd l) (n - a) = Some s) /\ k = length (map snd l)).
    { clear. induction l as [|(m & t) l IH]; intros a k H; destruct k as [|k]; try discriminate; cbn [map fst snd seq length] in *.
      - split; [|reflexivity]. intros n s. split; [intros []|]. intros (_ & X). destruct (n - a)%nat; discriminate.
      - injection H as -> H. destruct (IH _ _ H) as (A & B). split; [|now rewrite B at 1]. intros n s. cbn [In]. rewrite A. split.
        + intros [X|(X & Y)]; [injection X as -> ->; split; [lia|]; now rewrite Nat.sub_diag|]. split; [lia|]. replace (n - a)%nat with (S (n - S a)) by lia. exact Y.
        + intros (X & Y). destruct (Nat.eq_dec n a) as [->|N]; [left; rewrite Nat.sub_diag in Y; cbn in Y; congruence|]. right. split; [lia|]. replace (n - a)%nat with (S (n - S a)) in Y by lia. exact Y. }
    destruct (G l 0%nat k L) as (A & B). split; [|exact B]. intros n s. rewrite A, Nat.sub_0_r. split; [tauto|]. split; [lia|auto].
  Qed.
  Lemma line_one p hand ans its n s s' : INV p hand ans its -> In (n, s) (lines (p_trace p)) -> In (n, s') (lines (p_trace p)) -> s = s'.
  Proof.
    intros I. pose proof (seq_NoDup (p_lines p) 0) as N. rewrite <- (i_lines _ _ _ _ _ _ _ _ _ _ I) in N. revert N. generalize (lines (p_trace p)) as l. clear.
    induction l as [|(m & t) l IH]; intros N J J'; [destruct J|]. cbn [map fst] in N. inversion N as [|? ? A B]; subst.
    destruct J as [J|J], J' as [J'|J']; [congruence|injection J as -> ->; apply (in_map fst) in J'; tauto|injection J' as -> ->; apply (in_map fst) in J; tauto|auto].
  Qed.
  (** A question that has not been settled has no answer. *)
  Lemma unanswered p hand ans its n q ls : INV p hand ans its -> about (p_trace p) n q -> ~ In n (settled (p_trace p)) -> answer (p_trace p) n ls -> False.
  Proof.
    intros I (s & J & G & A) N H. destruct H as [main s' ls J' M X|q' es ls _ F _|q' es _ F _|q' x _ F|q' x _ F].
    - assert (s' = s) as -> by (eapply line_one; eauto). assert (main = true) as -> by now apply M. now apply (not_both domain argv0 repr s q ls).
    - apply N, settled_in. left. eauto.
    - apply N, settled_in. left. eauto.
    - apply N, settled_in. left. eauto.
    - apply N, settled_in. right. eauto.
  Qed.
  Lemma out_unanswered p hand ans its n ls : INV p [] ans its -> hand = [] -> In n (out p hand) -> answer (p_trace p) n ls -> False.
  Proof.
    intros I -> J. unfold out in J. rewrite app_nil_r in J. apply in_app_iff in J as [J|J].
    - apply in_map_iff in J as ((m & q) & <- & J). destruct (i_search _ _ _ _ _ _ _ _ _ _ I _ _ J) as (A & B & _). now apply unanswered with (1 := I) (2 := A).
    - apply alive_in in J as (q & J). destruct (i_waiting _ _ _ _ _ _ _ _ _ _ I _ _ J) as (A & B & _). now apply unanswered with (1 := I) (2 := A).
  Qed.
  (** The first line that is not answered *)
  Lemma first_open p ans its : INV p [] ans its -> its <> [] -> In (length ans) (out p []) /\ (length ans < p_lines p)%nat.
  Proof.
    intros I N. destruct its as [|it its]; [congruence|]. pose proof (i_its _ _ _ _ _ _ _ _ _ _ I 0%nat it eq_refl) as X. pose proof (i_flush _ _ _ _ _ _ _ _ _ _ I) as F. pose proof (i_count _ _ _ _ _ _ _ _ _ _ I) as C. cbn [length] in C.
    destruct it as [m| |]; try tauto. rewrite Nat.add_0_r in X. subst m. split; [|lia]. apply (i_wait _ _ _ _ _ _ _ _ _ _ I). now left.
  Qed.
  Lemma in_order evs : let tr := p_trace (run evs) in
    (forall n s, In (n, s) (lines tr) <-> nth_error (input_lines evs) n = Some s) /\
    exists ans, sent tr = concat ans /\ (length ans <= length (input_lines evs))%nat /\ (forall n ls, nth_error ans n = Some ls -> answer tr n ls) /\
      ((length ans < length (input_lines evs))%nat -> forall ls, ~ answer tr (length ans) ls).
  Proof.
    intros tr. destruct (run_input evs) as (RI & RL). split; [exact RI|]. destruct (runs lower depth domain argv0 repr traceback evs) as (ans & its & I). exists ans. pose proof (i_count _ _ _ _ _ _ _ _ _ _ I) as C.
    split; [exact (i_sent _ _ _ _ _ _ _ _ _ _ I)|]. split; [lia|]. split; [exact (i_ans _ _ _ _ _ _ _ _ _ _ I)|]. intros L ls H. destruct its as [|it its]; [cbn in C; lia|].
    destruct (first_open _ _ _ I) as (J & _); [discriminate|]. eapply out_unanswered; eauto.
  Qed.
  Lemma stops evs : let tr := p_trace (run evs) in
    (In PStop tr <-> In IEnd evs /\ forall n, (n < length (input_lines evs))%nat -> exists ls, answer tr n ls) /\
    forall a b, tr = a ++ PStop :: b -> sent b = [] /\ ~ In PStop b.
  Proof.
    intros tr. destruct (run_input evs) as (RI & RL). destruct (run_lines lower depth domain argv0 repr traceback evs) as (_ & RE). destruct (runs lower depth domain argv0 repr traceback evs) as (ans & its & I). pose proof (i_count _ _ _ _ _ _ _ _ _ _ I) as C.
    split; [|exact (i_stops _ _ _ _ _ _ _ _ _ _ I)]. unfold tr. rewrite (i_stop _ _ _ _ _ _ _ _ _ _ I), RE. split; intros (A & B); (split; [exact A|]).
    - subst its. cbn in C. intros n L. destruct (nth_error ans n) as [ls|] eqn:E; [exists ls; exact (i_ans _ _ _ _ _ _ _ _ _ _ I _ _ E)|]. apply nth_error_None in E. lia.
    - destruct its as [|it its]; [reflexivity|]. destruct (first_open _ _ _ I) as (J & L); [discriminate|]. destruct (B (length ans)) as (ls & H); [lia|]. exfalso. eapply out_unanswered; eauto.
  Qed.
  Lemma all_answered evs : let tr := p_trace (run evs) in
    (forall n f at_, In (PSearch n f at_) tr -> exists r, In (PFound n r) tr) -> ~ awaited tr -> (forall n x, ~ In (PRaised n x) tr) ->
    forall n, (n < length (input_lines evs))%nat -> exists ls, answer tr n ls.
  Proof.
    intros tr S W R n L. destruct (run_input evs) as (RI & RL). destruct (runs lower depth domain argv0 repr traceback evs) as (ans & its & I). pose proof (i_count _ _ _ _ _ _ _ _ _ _ I) as C. pose proof (finv_run lower depth domain argv0 repr traceback evs) as F.
    assert (X : its = []).
    { destruct its as [|it its]; [reflexivity|]. exfalso. destruct (first_open _ _ _ I) as (J & _); [discriminate|]. unfold out in J. rewrite app_nil_r in J. apply in_app_iff in J as [J|J].
      - apply in_map_iff in J as ((m & q) & E & J). destruct (i_search _ _ _ _ _ _ _ _ _ _ I _ _ J) as (_ & B & D). apply searched_in in D as (f & at_ & D). apply S in D as (r & D). apply B, settled_in. eauto.
      - assert (NE : p_waiting (run evs) <> []) by (intros E; rewrite E in J; destruct J). apply (f_waiting _ F) in NE. apply (f_lost _ F) in NE as [E|(m & x & E)]; [|exact (R m x E)]. apply (f_pending _ F) in E as (_ & E). exact (W E). }
    subst its. cbn in C. destruct (nth_error ans n) as [ls|] eqn:E; [exists ls; exact (i_ans _ _ _ _ _ _ _ _ _ _ I _ _ E)|]. apply nth_error_None in E. lia.
  Qed.
  (** ** One answer *)
  Lemma events_one {A} (f : A -> list nat) (l : list A) n x y : NoDup (flat_map f l) -> In x l -> In y l -> In n (f x) -> In n (f y) -> x = y.
  Proof.
    induction l as [|z l IH]; intros N X Y A1 A2; [destruct X|]. cbn [flat_map] in N.
    assert (D : forall w, In w l -> In n (f z) -> In n (f w) -> False).
    { intros w W B1 B2. apply in_split in B1 as (u & v & E). rewrite E, <- app_assoc in N. cbn [app] in N. apply NoDup_remove_2 in N. apply N. rewrite !in_app_iff. right. right. apply in_flat_map. eauto. }
    destruct X as [<-|X], Y as [<-|Y]; [reflexivity|destruct (D y); auto|destruct (D x); auto|]. apply IH; auto. now apply nodup_tail in N.
  Qed.
  Definition gives (q : question) (n : nat) (e : ptev) (ls : list str) : Prop :=
    match e with
    | PFound m (Ok es) => m = n /\ (records lower domain q es ls \/ (octets lower q es /\ ls = fails traceback EType))
    | PFound m (Err x) => m = n /\ ls = fails traceback x
    | PRefused m x => m = n /\ ls = fails traceback x
    | _ => False
    end.
  Lemma texts_one (vs vs' : list str) : map PStr vs = map PStr vs' -> vs = vs'.
  Proof. revert vs'. induction vs as [|v vs IH]; intros [|v' vs'] H; try discriminate; [reflexivity|]. cbn in H. injection H as -> H. f_equal. auto. Qed.
  Lemma records_one q es ls ls' : records lower domain q es ls -> records lower domain q es ls' -> ls = ls'.
  Proof.
    intros (vss & F & ->) (vss' & F' & ->). do 3 f_equal. revert vss' F'. induction F as [|e vs es vss H F IH]; intros vss' F'; inversion F' as [|? vs' ? vss'' H' F'']; subst; [reflexivity|]. f_equal; [|auto].
    unfold has_values in *. apply texts_one. congruence.
  Qed.
  Lemma records_octets q es ls : records lower domain q es ls -> octets lower q es -> False.
  Proof.
    intros (vss & F & _) (e & vs & b & J & H & Jb). induction F as [|e' vs' es vss H' F IH]; [destruct J|]. destruct J as [->|J]; [|auto].
    unfold has_values in *. assert (E : vs = map PStr vs') by congruence. rewrite E in Jb. apply in_map_iff in Jb as (v & X & _). discriminate.
  Qed.
  Lemma gives_one q n e ls ls' : gives q n e ls -> gives q n e ls' -> ls = ls'.
  Proof.
    destruct e as [| | | | | |m x| |m [es|x]| | | |]; cbn [gives]; try tauto.
    - intros (_ & ->) (_ & ->). reflexivity.
    - intros (_ & [A|(A & ->)]) (_ & [B|(B & ->)]); [eapply records_one; eauto|destruct (records_octets _ _ _ A B)|destruct (records_octets _ _ _ B A)|reflexivity].
    - intros (_ & ->) (_ & ->). reflexivity.
  Qed.
  Lemma answer_kind tr n ls : answer tr n ls -> (exists main s, In (n, s) (lines tr) /\ (main = true <-> greeted tr n) /\ immediate domain argv0 repr main s ls) \/
    (exists q e, about tr n q /\ In e tr /\ gives q n e ls).
  Proof.
    intros H. destruct H as [main s' ls J' M X|q' es ls A F R|q' es A F R|q' x A F|q' x A F]; [left; eauto|right..].
    - exists q', (PFound n (Ok es)). cbn. auto 10.
    - exists q', (PFound n (Ok es)). cbn. auto 10.
    - exists q', (PFound n (Err x)). cbn. auto.
    - exists q', (PRefused n x). cbn. auto.
  Qed.
  Lemma one_answer evs n ls ls' : answer (p_trace (run evs)) n ls -> answer (p_trace (run evs)) n ls' -> ls = ls'.
  Proof.
    destruct (runs lower depth domain argv0 repr traceback evs) as (ans & its & I). set (tr := p_trace (run evs)) in *.
    assert (X : forall main s l q, In (n, s) (lines tr) -> (main = true <-> greeted tr n) -> immediate domain argv0 repr main s l -> about tr n q -> False).
    { intros main s l q J M K (s' & J' & G & A). assert (s' = s) as -> by (eapply line_one; eauto). assert (main = true) as -> by now apply M. now apply (not_both domain argv0 repr s q l). }
    intros A B. apply answer_kind in A, B. destruct A as [(main & s & J & M & K)|(q & e & A & J & K)], B as [(main' & s' & J' & M' & K')|(q' & e' & A' & J' & K')].
    - assert (s' = s) as -> by (eapply line_one; eauto). assert (main' = main) as -> by (apply Bool.eq_iff_eq_true; rewrite M, M'; reflexivity). eapply immediate_one; eauto.
    - destruct (X _ _ _ _ J M K A').
    - destruct (X _ _ _ _ J' M' K' A).
    - assert (q' = q) as ->.
      { destruct A as (s & Js & _ & A), A' as (s' & Js' & _ & A'). assert (s' = s) as -> by (eapply line_one; eauto). exact (asks_one domain argv0 repr s q' q A' A). }
      assert (e' = e) as ->; [|eapply gives_one; eauto]. destruct (i_once _ _ _ _ _ _ _ _ _ _ I) as (_ & N). eapply events_one with (n := n); [exact N|exact J'|exact J|..].
      + destruct e' as [| | | | | |m x| |m [es|x]| | | |]; cbn [gives] in K'; try tauto; destruct K' as (-> & _); now left.
      + destruct e as [| | | | | |m x| |m [es|x]| | | |]; cbn [gives] in K; try tauto; destruct K as (-> & _); now left.
  Qed.

  (** ** After the factory has raised *)
  Definition dead (e : ptev) : Prop :=
    match e with PSearch _ _ _ | PFetch | PEntry _ | PNoEntry _ | PRaised _ _ => False | PRefused _ x => x = ETooMuch | _ => True end.
  Definition stuck (p : pdns) : Prop := p_entry p = None /\ p_fetching p = true /\ p_pending p = false.
  Lemma dead_work w : Forall dead (snd (do_work w)).
  Proof.
    induction w as [|i w IH]; cbn [do_work]; [constructor|]. destruct i as [n|[|l ls]|]; [constructor|repeat constructor|..].
    - destruct (do_work w) as (w' & es). cbn [snd] in *. apply Forall_app. split; [|exact IH]. generalize (l :: ls) as k. clear. induction k as [|l k IH]; constructor; auto. exact Logic.I.
    - destruct w; repeat constructor.
  Qed.
  Definition deadly (p p' : pdns) : Prop := stuck p -> stuck p' /\ exists es, p_trace p' = p_trace p ++ es /\ Forall dead es.
  Lemma deadly_trans p q r : deadly p q -> deadly q r -> deadly p r.
  Proof. intros A B H. destruct (A H) as (H1 & e1 & E1 & F1). destruct (B H1) as (H2 & e2 & E2 & F2). split; [exact H2|]. exists (e1 ++ e2). rewrite E2, E1, <- app_assoc. split; [reflexivity|]. apply Forall_app. auto. Qed.
  Lemma deadly_emit es p p' : p_entry p' = p_entry p -> p_fetching p' = p_fetching p -> p_pending p' = p_pending p -> p_trace p' = p_trace p ++ es -> Forall dead es -> deadly p p'.
  Proof. intros A B C D F (H1 & H2 & H3). split; [split; [congruence|split; congruence]|]. eauto. Qed.
  Lemma deadly_completed n ls p : deadly p (completed n ls p).
  Proof. unfold completed, work. match goal with |- context [do_work ?w] => pose proof (dead_work w) as F; destruct (do_work w) as (w' & es) end. cbn [snd] in F. apply deadly_emit with (es := es); auto. Qed.
  Lemma deadly_step p e : deadly p (step p e).
  Proof.
    assert (RR : deadly p p) by (apply deadly_emit with (es := []); auto; now rewrite app_nil_r).
    intros H. generalize H. change (deadly p (step p e)). destruct H as (H1 & H2 & H3). destruct e as [s m soon|c soon|x|n r|c|]; cbn [PdnsModel.step].
    - destruct (p_ended p); [exact RR|]. unfold line_received. destruct (handle _ _ _ _ s) as (main & r). change (mkPdns main _ _ _ _ _ _ _ _ _) with (with_line main s p).
      assert (L : deadly p (with_line main s p)) by (apply deadly_emit with (es := [PLine (p_lines p) s]); auto; repeat constructor).
      eapply deadly_trans; [exact L|]. destruct r as [ls|q]; [apply deadly_completed|]. unfold get_entry. cbn [with_line p_entry]. rewrite H1. destruct (10 <? length _)%nat.
      + unfold failed. eapply deadly_trans; [|apply deadly_completed]. apply deadly_emit with (es := [PRefused (p_lines p) ETooMuch]); auto. repeat constructor.
      + cbv zeta. cbn [set_waiting with_line p_fetching]. rewrite H2. apply deadly_emit with (es := []); auto. now rewrite app_nil_r.
    - rewrite H3. exact RR.
    - rewrite H3. exact RR.
    - destruct (asked n (p_search p)) as [q|]; [|exact RR]. unfold found, failed. cbv zeta. eapply deadly_trans with (q := emit [PFound n r] (set_search _ p)).
      + apply deadly_emit with (es := [PFound n r]); auto. repeat constructor.
      + destruct r as [es|x]; [destruct (got _ _ q es)|]; apply deadly_completed.
    - unfold lost_client. cbv zeta. cbn [emit p_entry]. rewrite H1. apply deadly_emit with (es := [PLost c; PExc EAssert]); auto; [|repeat constructor]. cbn [emit p_trace]. now rewrite <- app_assoc.
    - destruct (p_ended p); [exact RR|]. unfold input_lost, work. match goal with |- context [do_work ?w] => pose proof (dead_work w) as F; destruct (do_work w) as (w' & es) end. cbn [snd] in F.
      apply deadly_emit with (es := [PEnd] ++ es); auto; [cbn [emit set_work p_trace]; now rewrite <- app_assoc|]. apply Forall_app. split; [repeat constructor|exact F].
  Qed.
  Lemma raised_dead evs evs' n x : In (PRaised n x) (p_trace (run evs)) ->
    exists es, p_trace (run (evs ++ evs')) = p_trace (run evs) ++ es /\ Forall dead es.
  Proof.
    intros J. assert (H : stuck (run evs)) by (apply (f_raised _ (finv_run lower depth domain argv0 repr traceback evs)); now exists n, x). clear J. unfold PdnsModel.run in *. rewrite fold_left_app.
    revert H. generalize (fold_left step evs pdns_0) as p. induction evs' as [|e evs' IH]; intros p H; cbn [fold_left]; [exists []; rewrite app_nil_r; auto|].
    destruct (deadly_step p e H) as (H1 & e1 & E1 & F1). destruct (IH _ H1) as (e2 & E2 & F2). exists (e1 ++ e2). rewrite E2, E1, <- app_assoc. split; [reflexivity|]. apply Forall_app. auto.
  Qed.
  (** So a question that comes then is never answered, or it is refused. *)
  Lemma raised_unanswered evs evs' n x m q ls : In (PRaised n x) (p_trace (run evs)) ->
    let tr := p_trace (run (evs ++ evs')) in (length (input_lines evs) <= m)%nat -> about tr m q -> answer tr m ls -> ls = fails traceback ETooMuch.
  Proof.
    intros J tr L A H. destruct (raised_dead evs evs' n x J) as (es & E & F). destruct (runs lower depth domain argv0 repr traceback evs) as (a1 & i1 & I1). destruct (runs lower depth domain argv0 repr traceback (evs ++ evs')) as (a2 & i2 & I2). fold tr in E.
    destruct (run_input evs) as (_ & RL). rewrite Forall_forall in F.
    assert (NS : ~ In m (searched tr)).
    { rewrite E, searched_app, in_app_iff. intros [X|X]; [apply (searched_bound _ _ _ _ _ _ _ _ _ _ m I1) in X; lia|]. apply searched_in in X as (f & at_ & X). exact (F _ X). }
    destruct H as [main s' ls J' M X|q' es' ls _ K _|q' es' _ K _|q' y _ K|q' y _ K].
    - destruct A as (s & Js & G & A). assert (s' = s) as -> by (eapply line_one; eauto). assert (main = true) as -> by now apply M. now destruct (not_both domain argv0 repr s q ls).
    - destruct NS. exact (i_found _ _ _ _ _ _ _ _ _ _ I2 _ _ K).
    - destruct NS. exact (i_found _ _ _ _ _ _ _ _ _ _ I2 _ _ K).
    - destruct NS. exact (i_found _ _ _ _ _ _ _ _ _ _ I2 _ _ K).
    - rewrite E in K. apply in_app_iff in K as [K|K]; [|apply F in K; cbn in K; now subst]. exfalso. assert (X : In m (settled (p_trace (run evs)))) by (apply settled_in; right; eauto). apply (settled_bound _ _ _ _ _ _ _ _ _ _ m I1) in X. lia.
  Qed.
End End_.
