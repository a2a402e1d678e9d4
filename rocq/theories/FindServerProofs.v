(** Proofs for FindServerModel. *)
From Verif Require Import Base Utf8Model DnModel DnSpec DnProofs FindServerModel FindServerSpec.
From Coq Require Import Lia.

Lemma fview_app : forall k a b, fview k (a ++ b) = fview k a ++ fview k b.
Proof. intros. unfold fview. apply filter_app. Qed.
Lemma fview_same : forall k es, (forall e, In e es -> fabout e = Some k) -> fview k es = es.
Proof.
  induction es as [|e r IH]; intro H; [reflexivity|]. unfold fview in *. cbn.
  rewrite (H e (or_introl eq_refl)), Nat.eqb_refl, IH; [reflexivity|]. intros e' He'. apply H. now right.
Qed.
Lemma fview_other : forall k es, (forall e, In e es -> fabout e <> Some k) -> fview k es = [].
Proof.
  induction es as [|e r IH]; intro H; [reflexivity|]. unfold fview in *. cbn.
  assert (E : match fabout e with Some j => Nat.eqb j k | None => false end = false).
  { destruct (fabout e) as [j|] eqn:A; [|reflexivity]. apply Nat.eqb_neq. intros ->. exact (H e (or_introl eq_refl) A). }
  rewrite E. apply IH. intros e' He'. apply H. now right.
Qed.
Lemma first_answer_snoc : forall k l j r,
  first_answer k (l ++ [(j, r)]) = match first_answer k l with Some a => Some a | None => if Nat.eqb j k then Some r else None end.
Proof.
  intros k l j r. unfold first_answer. induction l as [|[i q] l IH]; cbn; [destruct (Nat.eqb j k); reflexivity|].
  destruct (Nat.eqb i k); [reflexivity|exact IH].
Qed.
Lemma print_list_app : forall dec k dn a b, print_list dec k dn (a ++ b) = print_list dec k dn a ++ print_list dec k dn b.
Proof. induction a as [|[s|] a IH]; intro b; cbn; [reflexivity| |]; now rewrite IH. Qed.
Lemma print_answer_concat : forall dec k dn a, print_answer dec k dn a = print_list dec k dn (concat a).
Proof. induction a as [|l a IH]; cbn; [reflexivity|]. now rewrite print_list_app, IH. Qed.
Lemma print_answer_told : forall dec k dn a, told dec k dn (Some (Ok a)) (print_answer dec k dn a).
Proof.
  intros dec k dn a. rewrite print_answer_concat.
  assert (H : exists ts, Forall2 (says dec dn) (servers_of a) ts /\ print_list dec k dn (concat a) = map (FPrint k) ts).
  { unfold servers_of. induction (concat a) as [|[s|] r IH]; cbn.
    - exists []. auto.
    - destruct IH as (ts & F & E). exists (srv_line dec dn s :: ts). split; [constructor; [reflexivity|exact F]|]. cbn. now rewrite E.
    - exact IH. }
  destruct H as (ts & F & ->). now constructor.
Qed.
Lemma told_about : forall dec k dn o es e, told dec k dn o es -> In e es -> fabout e = Some k.
Proof.
  intros dec k dn o es e H He. destruct H; [destruct He| |destruct He as [<-|[]]; reflexivity].
  apply in_map_iff in He. destruct He as (t & <- & _). reflexivity.
Qed.

Lemma told_kind : forall dec k dn o es e, told dec k dn o es -> In e es -> (exists t, e = FPrint k t) \/ (exists x, e = FError k x /\ o = Some (Err x)).
Proof.
  intros dec k dn o es e H He. destruct H; [destruct He| |destruct He as [<-|[]]; eauto].
  apply in_map_iff in He. destruct He as (t & <- & _). eauto.
Qed.

Section Proofs.
  Variable upper : str -> str.
  Variable io : Z -> Z -> res Z.
  Variable dec : Z -> str.
  Notation find_run := (find_run upper io dec).
  Notation find_start := (find_start upper io).
  Notation find_step := (find_step dec).
  Notation ask := (ask upper io).

  Lemma ask_ok : forall dns k, (forall t, In t dns -> exists d, parse_dn io t = Ok d) ->
    snd (ask k dns) = false /\
    Forall2 (fun t e => exists d j name, parse_dn io t = Ok d /\ asks upper d name /\ e = FLookup j name) dns (fst (ask k dns)) /\
    map fabout (fst (ask k dns)) = map Some (seq k (length dns)).
  Proof.
    induction dns as [|t r IH]; intros k H; cbn; [auto|]. destruct (H t (or_introl eq_refl)) as (d & D). rewrite D. cbn.
    destruct (IH (S k)) as (A & B & C); [intros u Hu; apply H; now right|]. split; [exact A|]. split; [|now rewrite C].
    constructor; [|exact B]. exists d, k, (lookup_name (getDomainName upper d)). split; [exact D|]. split; [|reflexivity].
    destruct (domain_name_spec upper d) as (pre & dcs & vs & P & Q & R & E). exists pre, dcs, vs. split; [exact P|]. split; [exact Q|]. split; [exact R|].
    unfold lookup_name. rewrite E. now destruct vs.
  Qed.
  Lemma ask_nth : forall dns k j t, (forall u, In u dns -> exists d, parse_dn io u = Ok d) -> nth_error dns j = Some t ->
    exists d name, parse_dn io t = Ok d /\ asks upper d name /\ nth_error (fst (ask k dns)) j = Some (FLookup (k + j) name).
  Proof.
    induction dns as [|u r IH]; intros k j t H J; [destruct j; discriminate|]. destruct (H u (or_introl eq_refl)) as (d & D). cbn. rewrite D. cbn.
    destruct j as [|j]; cbn in J.
    - injection J as ->. exists d, (lookup_name (getDomainName upper d)). split; [exact D|]. split; [|cbn; now rewrite Nat.add_0_r].
      destruct (domain_name_spec upper d) as (pre & dcs & vs & P & Q & R & E). exists pre, dcs, vs. split; [exact P|]. split; [exact Q|]. split; [exact R|].
      unfold lookup_name. rewrite E. now destruct vs.
    - destruct (IH (S k) j t) as (d' & name & A & B & C); [intros v Hv; apply H; now right|exact J|]. exists d', name. split; [exact A|]. split; [exact B|].
      cbn. rewrite C. do 2 f_equal. lia.
  Qed.
  Lemma ask_bad : forall good k t rest x, (forall u, In u good -> exists d, parse_dn io u = Ok d) -> parse_dn io t = Err x ->
    ask k (good ++ t :: rest) = (fst (ask k good) ++ [FRaised (k + length good) x], true).
  Proof.
    induction good as [|u good IH]; intros k t rest x H X; cbn.
    - rewrite X, Nat.add_0_r. reflexivity.
    - destruct (H u (or_introl eq_refl)) as (d & D). rewrite D. rewrite (IH (S k) t rest x); [|intros v Hv; apply H; now right|exact X]. cbn.
      now rewrite Nat.add_succ_r.
  Qed.
  Lemma over_stays : forall dns l w, f_over w = true -> fold_left (find_step dns) l w = w.
  Proof. induction l as [|[k r] l IH]; intros w H; [reflexivity|]. cbn [fold_left]. unfold FindServerModel.find_step at 2. rewrite H. cbn. now apply IH. Qed.

  Theorem run_bad : forall good t rest x l, (forall u, In u good -> exists d, parse_dn io u = Ok d) -> parse_dn io t = Err x ->
    exists es, map fabout es = map Some (seq 0 (length good)) /\ (forall e, In e es -> exists k name, e = FLookup k name) /\
      f_trace (find_run (good ++ t :: rest) l) = es ++ [FRaised (length good) x] /\ find_exit (find_run (good ++ t :: rest) l) = 1%Z.
  Proof.
    intros good t rest x l H X. exists (fst (ask 0 good)). destruct (ask_ok good 0 H) as (_ & F & M). split; [exact M|]. split.
    { clear M. intros e He. induction F as [|u e' us es (d & j & name & _ & _ & ->) F IH]; [destruct He|]. destruct He as [<-|He]; [eauto|].
      apply IH; [|exact He]. revert H. clear. intros H u' Hu. apply H. now right. }
    assert (E : find_run (good ++ t :: rest) l = mkFound [] true true (fst (ask 0 good) ++ [FRaised (length good) x])).
    { unfold FindServerModel.find_run. assert (S0 : find_start (good ++ t :: rest) = mkFound [] true true (fst (ask 0 good) ++ [FRaised (length good) x])).
      { unfold FindServerModel.find_start. rewrite (ask_bad good 0 t rest x H X). destruct good; reflexivity. }
      rewrite S0. now apply over_stays. }
    rewrite E. split; reflexivity.
  Qed.

  Section Good.
    Variable dns : list str.
    Hypothesis readable : forall t, In t dns -> exists d, parse_dn io t = Ok d.
    Hypothesis some : dns <> [].
    Definition answered (k : nat) (l : list (nat * res answers)) : Prop := first_answer k l <> None.

    Definition fine (l : list (nat * res answers)) (w : found) : Prop :=
      f_over w = false /\
      (forall k, In k (f_waiting w) <-> (k < length dns)%nat /\ first_answer k l = None) /\
      (exists tr, f_trace w = fst (ask 0 dns) ++ tr ++ match f_waiting w with [] => [FStop] | _ => [] end /\
        (forall e, In e tr -> exists k, fabout e = Some k /\ (k < length dns)%nat /\ (forall name, e <> FLookup k name)) /\
        (f_exit w = true <-> exists k x, In (FError k x) tr) /\
        (forall e, In e tr -> forall k x, e <> FRaised k x) /\
        forall k dn, nth_error dns k = Some dn -> told dec k dn (first_answer k l) (fview k tr)).
    Lemma start_fine : fine [] (find_start dns).
    Proof.
      destruct (ask_ok dns 0 readable) as (A & _ & _).
      assert (E : find_start dns = mkFound (seq 0 (length dns)) false false (fst (ask 0 dns))).
      { unfold FindServerModel.find_start. rewrite A. destruct dns; [congruence|reflexivity]. }
      rewrite E. split; [reflexivity|]. split.
      - intro k. cbn [f_waiting]. rewrite in_seq. unfold first_answer. cbn. split; [intros [_ L]; auto|intros [L _]; lia].
      - exists []. cbn [f_trace f_waiting f_exit]. split; [destruct dns; [congruence|cbn [length seq]; cbn [app]; now rewrite app_nil_r]|].
        split; [intros e []|]. split; [split; [discriminate|intros (k & x & [])]|]. split; [intros e []|]. intros k dn H. constructor.
    Qed.
    Lemma step_fine : forall l w k r, fine l w -> fine (l ++ [(k, r)]) (find_step dns w (k, r)).
    Proof.
      intros l w k r (O & W & tr & T & B & X & R & V). unfold FindServerModel.find_step. rewrite O. cbn [orb].
      destruct (existsb (Nat.eqb k) (f_waiting w)) eqn:EX; cbn [negb].
      - apply existsb_exists in EX. destruct EX as (k' & IN & Q). apply Nat.eqb_eq in Q. subst k'.
        pose proof (proj1 (W k) IN) as [LT FA]. destruct (nth_error dns k) as [dn|] eqn:K; [|apply nth_error_None in K; lia].
        set (rest := filter (fun j => negb (Nat.eqb j k)) (f_waiting w)).
        set (es := match r with Ok a => print_answer dec k dn a | Err x => [FError k x] end).
        assert (TO : told dec k dn (Some r) es) by (unfold es; destruct r; [apply print_answer_told|constructor]).
        split; [reflexivity|]. split.
        + intro j. cbn [f_waiting]. unfold rest. rewrite filter_In, W, first_answer_snoc. destruct (Nat.eqb_spec j k) as [->|N].
          * rewrite FA, Nat.eqb_refl. split; [intros [_ D]; discriminate|intros [_ D]; discriminate].
          * destruct (Nat.eqb_spec k j) as [->|_]; [congruence|]. destruct (first_answer j l); intuition discriminate.
        + exists (tr ++ es). cbn [f_trace f_waiting f_exit]. split.
          { rewrite T. destruct (f_waiting w) as [|a b]; [destruct IN|]. rewrite app_nil_r, <- !app_assoc. reflexivity. }
          split; [|split; [|split]].
          * intros e He. apply in_app_or in He. destruct He as [He|He]; [auto|]. exists k. split; [eapply told_about; eauto|]. split; [exact LT|].
            intros name D. subst e. destruct (told_kind _ _ _ _ _ _ TO He) as [(t & D)|(x & D & _)]; discriminate.
          * rewrite Bool.orb_true_iff, X. split.
            { intros [(j & x & D)|D]; [exists j, x; apply in_or_app; auto|]. destruct r as [a|x]; [discriminate|]. exists k, x. apply in_or_app. right. now left. }
            { intros (j & x & D). apply in_app_or in D. destruct D as [D|D]; [left; eauto|]. right. destruct r as [a|y]; [|reflexivity].
              exfalso. destruct (told_kind _ _ _ _ _ _ TO D) as [(t & Q)|(z & _ & Q)]; discriminate. }
          * intros e He j x D. subst e. apply in_app_or in He. destruct He as [He|He]; [exact (R _ He j x eq_refl)|].
            destruct (told_kind _ _ _ _ _ _ TO He) as [(t & D)|(z & D & _)]; discriminate.
          * intros j dn' J. rewrite fview_app, first_answer_snoc. destruct (Nat.eqb_spec k j) as [<-|N].
            { rewrite FA. assert (dn' = dn) by congruence. subst dn'. specialize (V k dn K). rewrite FA in V. inversion V as [E1 E2| |].
              cbn [app]. rewrite (fview_same k es); [exact TO|]. intros e He. eapply told_about; eauto. }
            { rewrite (fview_other j es), app_nil_r; [specialize (V j dn' J); destruct (first_answer j l); exact V|].
              intros e He D. rewrite (told_about _ _ _ _ _ _ TO He) in D. congruence. }
      - assert (NI : forall j, (j < length dns)%nat -> first_answer j (l ++ [(k, r)]) = first_answer j l).
        { intros j LT. rewrite first_answer_snoc. destruct (first_answer j l) eqn:F; [reflexivity|]. destruct (Nat.eqb_spec k j) as [->|_]; [|reflexivity].
          exfalso. assert (IN : In j (f_waiting w)) by (apply W; auto). assert (existsb (Nat.eqb j) (f_waiting w) = true); [|congruence].
          apply existsb_exists. exists j. split; [exact IN|apply Nat.eqb_refl]. }
        split; [exact O|]. split.
        + intro j. rewrite W. split; intros [A C]; (split; [exact A|]); rewrite NI in * by assumption; exact C.
        + exists tr. split; [exact T|]. split; [exact B|]. split; [exact X|]. split; [exact R|]. intros j dn J. rewrite NI; [auto|]. apply nth_error_Some. congruence.
    Qed.
    Lemma run_fine : forall l, fine l (find_run dns l).
    Proof.
      intro l. induction l as [|[k r] l IH] using rev_ind; [exact start_fine|]. unfold FindServerModel.find_run. rewrite fold_left_app. cbn [fold_left].
      now apply step_fine.
    Qed.
    (** The whole trace of a run: the questions, what came of them, and the end. *)
    Theorem run_good : forall l, exists asked tr stop, f_trace (find_run dns l) = asked ++ tr ++ stop /\
      length asked = length dns /\
      (forall k dn, nth_error dns k = Some dn -> exists d name, parse_dn io dn = Ok d /\ asks upper d name /\ nth_error asked k = Some (FLookup k name)) /\
      (forall e, In e tr -> exists k, fabout e = Some k /\ (k < length dns)%nat) /\
      (forall k dn, nth_error dns k = Some dn -> told dec k dn (first_answer k l) (fview k tr)) /\
      ((forall k, (k < length dns)%nat -> first_answer k l <> None) /\ stop = [FStop] \/
       (exists k, (k < length dns)%nat /\ first_answer k l = None) /\ stop = []).
    Proof.
      intro l. destruct (run_fine l) as (_ & W & tr & T & B & X & R & V).
      exists (fst (ask 0 dns)), tr, (match f_waiting (find_run dns l) with [] => [FStop] | _ => [] end). split; [exact T|].
      destruct (ask_ok dns 0 readable) as (_ & F & M). split; [symmetry; clear - F; induction F; cbn; congruence|]. split; [|split; [|split; [exact V|]]].
      - intros k dn K. exact (ask_nth dns 0 k dn readable K).
      - intros e He. destruct (B e He) as (k & P & Q & _). eauto.
      - destruct (f_waiting (find_run dns l)) as [|k r].
        + left. split; [|reflexivity]. intros k LT N. apply (proj2 (W k)). auto.
        + right. split; [|reflexivity]. exists k. apply W. now left.
    Qed.
    Theorem run_exit : forall l, find_exit (find_run dns l) = 1%Z <-> exists k x, (k < length dns)%nat /\ first_answer k l = Some (Err x).
    Proof.
      intro l. destruct (run_fine l) as (_ & W & tr & T & B & X & R & V). unfold find_exit. destruct (f_exit (find_run dns l)).
      - split; [intros _|reflexivity]. destruct (proj1 X eq_refl) as (k & x & D). destruct (B _ D) as (j & P & LT & _). injection P as <-. exists k, x. split; [exact LT|].
        apply nth_error_Some in LT. destruct (nth_error dns k) as [dn|] eqn:K; [|congruence]. pose proof (V k dn K) as TO.
        assert (IN : In (FError k x) (fview k tr)) by (unfold fview; apply filter_In; split; [exact D|apply Nat.eqb_refl]).
        destruct (told_kind _ _ _ _ _ _ TO IN) as [(t & Q)|(y & Q & E)]; [discriminate|]. injection Q as ->. exact E.
      - split; [discriminate|]. intros (k & x & LT & E). exfalso. apply nth_error_Some in LT. destruct (nth_error dns k) as [dn|] eqn:K; [|congruence].
        pose proof (V k dn K) as TO. rewrite E in TO. inversion TO as [| |y E1 E2].
        assert (IN : In (FError k x) tr). { assert (Q : In (FError k x) (fview k tr)) by (rewrite <- E2; now left). unfold fview in Q. apply filter_In in Q. apply Q. }
        assert (D : false = true) by (apply X; eauto). discriminate.
    Qed.
  End Good.
End Proofs.
