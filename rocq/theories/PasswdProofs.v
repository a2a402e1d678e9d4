(** Proofs for PasswdModel: every run of the tool that sets passwords has the shape of the specification. *)
From Verif Require Import Base Utf8Model DnModel UtilModel ToolsModel PasswdModel PasswdSpec.
From Coq Require Import Lia.

Lemma view_app : forall k a b, view k (a ++ b) = view k a ++ view k b.
Proof. intros. unfold view. apply filter_app. Qed.
Lemma view_same : forall k es, (forall e, In e es -> about e = Some k) -> view k es = es.
Proof.
  induction es as [|e r IH]; intro H; [reflexivity|]. unfold view in *. cbn. unfold about_k at 1.
  rewrite (H e (or_introl eq_refl)), Nat.eqb_refl, IH; [reflexivity|]. intros e' He'. apply H. now right.
Qed.
Lemma view_other : forall k es, (forall e, In e es -> about e <> Some k) -> view k es = [].
Proof.
  induction es as [|e r IH]; intro H; [reflexivity|]. unfold view in *. cbn.
  assert (E : about_k k e = false).
  { unfold about_k. destruct (about e) as [j|] eqn:A; [|reflexivity]. apply Nat.eqb_neq. intros ->.
    exact (H e (or_introl eq_refl) A). }
  rewrite E. apply IH. intros e' He'. apply H. now right.
Qed.
Lemma in_view : forall k e tr, In e (view k tr) <-> In e tr /\ about e = Some k.
Proof.
  intros k e tr. unfold view. rewrite filter_In. unfold about_k. split; intros [A B]; split; auto.
  - destruct (about e) as [j|]; [|discriminate]. apply Nat.eqb_eq in B. now subst.
  - rewrite B. apply Nat.eqb_refl.
Qed.
Lemma set_item_same : forall l k i j, nth_error l k = Some j -> nth_error (set_item k i l) k = Some i.
Proof. induction l as [|a l IH]; intros [|k] i j H; cbn in *; try discriminate; eauto. Qed.
Lemma set_item_other : forall l k k' i, k <> k' -> nth_error (set_item k i l) k' = nth_error l k'.
Proof. induction l as [|a l IH]; intros [|k] [|k'] i H; cbn; auto; try congruence. Qed.
Lemma set_item_length : forall l k i, length (set_item k i l) = length l.
Proof. induction l as [|a l IH]; intros [|k] i; cbn; auto. Qed.

Section Proofs.
  Variable io : Z -> Z -> res Z.
  Variable binddn : str.
  Variable bind_password : option str.
  Variable dns : list str.
  Variable generated : bool.
  Notation history := (history io generated).
  Notation asked := (asked generated).

  Definition item_hist (k : nat) (dn : str) (i : pending) (l : list sevent) : Prop :=
    match i with
    | Waiting d => d = dn /\ l = [asked k dn]
    | Setting d pw => d = dn /\ exists p, parse_dn io dn = Ok p /\ l = [asked k dn; SGot k (Ok [pw]); SSet k p pw]
    | Finished => history k dn l true
    end.
  Definition flag (x : bool) (es : list sevent) : Prop := x = true <-> exists o e, In (SFail o e) es.
  Lemma flag_nil : flag false [].
  Proof. split; [discriminate|]. intros (o & e & []). Qed.
  Lemma flag_app : forall x y a b, flag x a -> flag y b -> flag (x || y) (a ++ b).
  Proof.
    intros x y a b A B. unfold flag in *. rewrite Bool.orb_true_iff, A, B. split.
    - intros [(o & e & H)|(o & e & H)]; exists o, e; apply in_or_app; auto.
    - intros (o & e & H). apply in_app_or in H. destruct H as [H|H]; [left|right]; eauto.
  Qed.
  Lemma flag_cons : forall x e es, (forall o y, e <> SFail o y) -> flag x es -> flag x (e :: es).
  Proof.
    intros x e es N H. unfold flag in *. rewrite H. split; intros (o & y & A); exists o, y.
    - now right.
    - destruct A as [A|A]; [exfalso; eapply N; eauto|assumption].
  Qed.
  Lemma flag_none : forall es, (forall o y, ~ In (SFail o y) es) -> flag false es.
  Proof. intros es H. split; [discriminate|]. intros (o & y & A). exfalso. eapply H; eauto. Qed.

  Lemma was_set_ok : forall k dn pw r p i es x, parse_dn io dn = Ok p -> was_set generated k dn pw r = (i, es, x) ->
    item_hist k dn i ([asked k dn; SGot k (Ok [pw]); SSet k p pw] ++ es) /\ (forall e, In e es -> about e = Some k) /\ flag x es.
  Proof.
    intros k dn pw r p i es x P H. unfold was_set in H. destruct r as [u|y]; injection H as <- <- <-; (split; [|split]).
    - exact (h_done io generated k dn pw p u P).
    - intros e [<-|He]; [reflexivity|]. destruct generated; [destruct He as [<-|[]]; reflexivity|destruct He].
    - apply flag_none. intros o y [A|A]; [discriminate|]. destruct generated; [destruct A as [A|[]]; discriminate|destruct A].
    - exact (h_failed io generated k dn pw p y P).
    - intros e [<-|[<-|[]]]; reflexivity.
    - split; [intros _; exists (Some k), y; right; now left|reflexivity].
  Qed.
  Lemma got_password_ok : forall k dn r now i es x, got_password io generated k dn r now = (i, es, x) ->
    item_hist k dn i (asked k dn :: es) /\ (forall e, In e es -> about e = Some k) /\ flag x es.
  Proof.
    intros k dn r now i es x H. unfold got_password in H. destruct r as [l|y].
    - assert (M : length l <> 1%nat -> (Finished, [SGot k (Ok l)], false) = (i, es, x) ->
        item_hist k dn i (asked k dn :: es) /\ (forall e, In e es -> about e = Some k) /\ flag x es).
      { intros N E. injection E as <- <- <-. split; [|split].
        - exact (h_many io generated k dn l N).
        - intros e [<-|[]]; reflexivity.
        - apply flag_none. intros o y [A|[]]; discriminate. }
      destruct l as [|pw [|pw' l]]; [apply M; [cbn; lia|exact H]| |apply M; [cbn; lia|exact H]]. clear M.
      destruct (parse_dn io dn) as [p|y] eqn:P.
      + destruct (now k) as [u|] eqn:N.
        * destruct (was_set generated k dn pw u) as [[i' es'] x'] eqn:W. injection H as <- <- <-.
          destruct (was_set_ok k dn pw u p i' es' x' P W) as (A & B & C). split; [exact A|]. split.
          -- intros e [<-|[<-|He]]; auto.
          -- apply flag_cons; [discriminate|]. apply flag_cons; [discriminate|]. exact C.
        * injection H as <- <- <-. split; [|split].
          -- cbn. eauto.
          -- intros e [<-|[<-|[]]]; reflexivity.
          -- apply flag_none. intros o y [A|[A|[]]]; discriminate.
      + injection H as <- <- <-. split; [|split].
        * exact (h_no_dn io generated k dn pw y P).
        * intros e [<-|[]]; reflexivity.
        * apply flag_none. intros o z [A|[]]; discriminate.
    - assert (D : y = EPwgen \/ y <> EPwgen).
      { destruct y; try (right; discriminate). destruct (Z.eq_dec tag 72) as [->|N]; [now left|right].
        intro E. apply N. unfold EPwgen in E. now injection E. }
      destruct D as [->|D].
      + injection H as <- <- <-. split; [|split].
        * exact (h_pwgen io generated k dn).
        * intros e [<-|[<-|[]]]; reflexivity.
        * apply flag_none. intros o z [A|[A|[]]]; discriminate.
      + assert (E : (Finished, [SGot k (Err y)], false) = (i, es, x)).
        { rewrite <- H. destruct y; try reflexivity. do 3 f_equal.
          destruct tag as [|c|c]; try reflexivity.
          repeat (destruct c as [c|c|]; try reflexivity); exfalso; apply D; reflexivity. }
        injection E as <- <- <-. split; [|split].
        * exact (h_none io generated k dn y D).
        * intros e [<-|[]]; reflexivity.
        * apply flag_none. intros o z [A|[]]; discriminate.
  Qed.

  Lemma ask_ok : forall k dn typed now i es x, ask io generated k dn typed now = Ok (i, es, x) ->
    item_hist k dn i (asked k dn :: es) /\ (forall e, In e es -> about e = Some k) /\ flag x es.
  Proof.
    intros k dn typed now i es x H. unfold ask in H. destruct (typed k) as [pw|y]; [|discriminate].
    assert (H' : (if generated then (Waiting dn, [], false) else got_password io generated k dn (Ok [pw]) now) = (i, es, x)) by congruence.
    clear H. destruct generated eqn:G.
    - injection H' as <- <- <-. split; [|split]; [|intros e []|exact flag_nil]. cbn. rewrite ?G. auto.
    - rewrite <- G in *. now apply got_password_ok in H'.
  Qed.
  Lemma asked_about : forall k dn, about (asked k dn) = Some k.
  Proof. intros. unfold PasswdSpec.asked. now destruct generated. Qed.
  Lemma asked_no_fail : forall k dn o y, asked k dn <> SFail o y.
  Proof. intros. unfold PasswdSpec.asked. destruct generated; discriminate. Qed.
  Definition items_ok (k : nat) (l : list str) (is : list pending) (mid : list sevent) : Prop :=
    forall j i, nth_error is j = Some i -> exists dn, nth_error l j = Some dn /\ item_hist (k + j) dn i (view (k + j) mid).

  Lemma ask_all_ok : forall typed now l k is es x e, ask_all io generated k l typed now = (is, es, x, e) ->
    items_ok k l is es /\ flag x es /\
    (forall ev, In ev es -> exists j, about ev = Some (k + j)%nat /\ (j <= length is)%nat /\ (j < length l)%nat) /\
    match e with
    | None => length is = length l
    | Some _ => exists dn, nth_error l (length is) = Some dn /\ view (k + length is) es = [asked (k + length is) dn]
    end.
  Proof.
    intros typed now. induction l as [|dn l IH]; intros k is es x e H; cbn [ask_all] in H.
    - injection H as <- <- <- <-. split; [|split; [|split]].
      + intros [|j] i A; discriminate.
      + exact flag_nil.
      + intros ev [].
      + reflexivity.
    - fold (asked k dn) in H. destruct (ask io generated k dn typed now) as [[[i es1] x1]|y] eqn:A.
      + destruct (ask_all io generated (S k) l typed now) as [[[is2 es2] x2] e2] eqn:R. injection H as <- <- <- <-.
        destruct (ask_ok _ _ _ _ _ _ _ A) as (HI & HA & HF). destruct (IH _ _ _ _ _ R) as (QI & QF & QA & QE).
        assert (V0 : view k (asked k dn :: es1) = asked k dn :: es1).
        { apply view_same. intros ev [<-|Hv]; [apply asked_about|now apply HA]. }
        assert (V1 : view k es2 = []).
        { apply view_other. intros ev Hv. destruct (QA ev Hv) as (j & -> & _ & _). intro E. injection E. lia. }
        assert (V2 : forall j, view (S k + j) (asked k dn :: es1) = []).
        { intro j. apply view_other. intros ev Hv E. assert (B : about ev = Some k).
          { destruct Hv as [<-|Hv]; [apply asked_about|now apply HA]. }
          rewrite B in E. injection E. lia. }
        split; [|split; [|split]].
        * intros [|j] i' Hj.
          -- injection Hj as <-. exists dn. split; [reflexivity|]. rewrite Nat.add_0_r.
             change (asked k dn :: es1 ++ es2) with ((asked k dn :: es1) ++ es2). rewrite view_app, V0, V1, app_nil_r. exact HI.
          -- destruct (QI j i' Hj) as (dn' & D & HH). exists dn'. split; [exact D|].
             replace (k + S j)%nat with (S k + j)%nat by lia.
             change (asked k dn :: es1 ++ es2) with ((asked k dn :: es1) ++ es2). rewrite view_app, V2. exact HH.
        * change (asked k dn :: es1 ++ es2) with ((asked k dn :: es1) ++ es2). apply flag_app; [|exact QF].
          apply flag_cons; [apply asked_no_fail|exact HF].
        * intros ev Hv. change (asked k dn :: es1 ++ es2) with ((asked k dn :: es1) ++ es2) in Hv. apply in_app_or in Hv. destruct Hv as [Hv|Hv].
          -- exists 0%nat. rewrite Nat.add_0_r. split; [|cbn; lia]. destruct Hv as [<-|Hv]; [apply asked_about|now apply HA].
          -- destruct (QA ev Hv) as (j & E & L1 & L2). exists (S j). split; [rewrite E; f_equal; lia|cbn; lia].
        * destruct e2 as [y|]; [|cbn; lia]. destruct QE as (dn' & D & E). exists dn'. split; [exact D|].
          cbn [length]. replace (k + S (length is2))%nat with (S k + length is2)%nat by lia.
          change (asked k dn :: es1 ++ es2) with ((asked k dn :: es1) ++ es2). rewrite view_app, V2. exact E.
      + injection H as <- <- <- <-. split; [|split; [|split]].
        * intros [|j] i A'; discriminate.
        * apply flag_none. intros o z [B|[]]. eapply asked_no_fail; eauto.
        * intros ev [<-|[]]. exists 0%nat. rewrite Nat.add_0_r. split; [apply asked_about|cbn; lia].
        * exists dn. split; [reflexivity|]. cbn [length]. rewrite Nat.add_0_r. apply view_same. intros ev [<-|[]]. apply asked_about.
  Qed.

  Lemma items_update : forall l is mid k dn i0 i es, items_ok 0 l is mid -> nth_error is k = Some i0 -> nth_error l k = Some dn ->
    item_hist k dn i (view k mid ++ es) -> (forall e, In e es -> about e = Some k) -> items_ok 0 l (set_item k i is) (mid ++ es).
  Proof.
    intros l is mid k dn i0 i es H K D HI HA j i' J. cbn. destruct (Nat.eq_dec k j) as [<-|N].
    - rewrite (set_item_same _ _ i _ K) in J. injection J as <-. exists dn. split; [exact D|].
      rewrite view_app, (view_same k es HA). exact HI.
    - rewrite set_item_other in J by assumption. destruct (H j i' J) as (dn' & D' & HH). exists dn'. split; [exact D'|].
      rewrite view_app, (view_other j es); [now rewrite app_nil_r|]. intros e He E. rewrite (HA e He) in E. injection E. lia.
  Qed.

  (** The invariant *)
  Definition middle (mid : list sevent) (n : nat) : Prop := forall e, In e mid -> exists k, about e = Some k /\ (k < n)%nat.
  Definition good (w : passwd) : Prop :=
    flag (w_exit w) (w_trace w) /\
    match w_phase w with
    | NotYet => w_trace w = []
    | Binding => opening binddn bind_password (w_trace w)
    | Running true => exists o mid, w_trace w = o ++ SBound (Ok tt) :: mid /\ opening binddn bind_password o /\ middle mid (length dns) /\
        length (w_items w) = length dns /\ items_ok 0 dns (w_items w) mid /\ forallb finished (w_items w) = false
    | Running false =>
        (exists x, w_items w = [] /\ binddn <> [] /\ bind_password = None /\ w_trace w = [SAskBind binddn; SRaised x]) \/
        (exists o x m1 m2 dn, w_trace w = o ++ SBound (Ok tt) :: m1 ++ SRaised x :: m2 /\ opening binddn bind_password o /\
           middle (m1 ++ m2) (S (length (w_items w))) /\ nth_error dns (length (w_items w)) = Some dn /\
           view (length (w_items w)) (m1 ++ m2) = [asked (length (w_items w)) dn] /\ items_ok 0 dns (w_items w) (m1 ++ m2))
    | Over => shape io binddn bind_password dns generated (w_trace w)
    end.

  Lemma finished_done : forall is mid, length is = length dns -> items_ok 0 dns is mid -> forallb finished is = true ->
    all_done io dns generated mid.
  Proof.
    intros is mid L H F k dn D. destruct (nth_error is k) as [i|] eqn:I.
    - destruct (H k i I) as (dn' & D' & HH). cbn in HH. assert (dn' = dn) by congruence. subst dn'.
      rewrite forallb_forall in F. specialize (F i (nth_error_In _ _ I)). destruct i; try discriminate. exact HH.
    - exfalso. apply nth_error_None in I. assert (k < length dns)%nat by (apply nth_error_Some; congruence). lia.
  Qed.
  Lemma item_not_done : forall k dn i l, item_hist k dn i l -> finished i = false -> ~ history k dn l true.
  Proof.
    intros k dn i l H F Q. destruct i as [d|d pw|]; [| |discriminate].
    - destruct H as [-> ->]. inversion Q.
    - destruct H as (-> & p & P & ->). inversion Q.
  Qed.
  Lemma unfinished : forall is mid, items_ok 0 dns is mid -> forallb finished is = false -> ~ all_done io dns generated mid.
  Proof.
    intros is mid H F Q. assert (X : exists k i, nth_error is k = Some i /\ finished i = false).
    { clear H Q. induction is as [|i is IH]; [discriminate|]. cbn in F. destruct (finished i) eqn:E.
      - destruct (IH F) as (k & i' & A & B). exists (S k), i'. auto.
      - exists 0%nat, i. auto. }
    destruct X as (k & i & I & E). destruct (H k i I) as (dn & D & HH). exact (item_not_done _ _ _ _ HH E (Q k dn D)).
  Qed.
  Lemma item_history : forall k dn i l, item_hist k dn i l -> exists b, history k dn l b.
  Proof.
    intros k dn i l H. destruct i as [d|d pw|].
    - destruct H as [-> ->]. exists false. constructor.
    - destruct H as (-> & p & P & ->). exists false. now constructor.
    - exists true. exact H.
  Qed.
  Lemma good_shape : forall w, good w -> shape io binddn bind_password dns generated (w_trace w).
  Proof.
    intros w [_ H]. destruct (w_phase w) as [| |[|]|].
    - rewrite H. constructor.
    - now constructor.
    - destruct H as (o & mid & -> & O & M & L & IT & F). apply s_running; auto.
      + intros k dn D. destruct (nth_error (w_items w) k) as [i|] eqn:I.
        * destruct (IT k i I) as (dn' & D' & HH). assert (dn' = dn) by congruence. subst. eapply item_history; eauto.
        * exfalso. apply nth_error_None in I. assert (k < length dns)%nat by (apply nth_error_Some; congruence). lia.
      + eapply unfinished; eauto.
    - destruct H as [(x & _ & B & P & ->)|(o & x & m1 & m2 & dn & -> & O & M & D & V & IT)]; [now constructor|].
      apply s_stuck with (j := length (w_items w)); auto.
      + apply nth_error_Some. congruence.
      + intros e He. destruct (M e He) as (k & A & K). exists k. split; [exact A|lia].
      + intros k dn' D' K. destruct (nth_error (w_items w) k) as [i|] eqn:I.
        * destruct (IT k i I) as (dn2 & D2 & HH). assert (dn2 = dn') by congruence. subst. eapply item_history; eauto.
        * exfalso. apply nth_error_None in I. lia.
      + intros dn' D'. assert (dn' = dn) by congruence. now subst.
    - exact H.
  Qed.

  Lemma check_good : forall is x o mid, flag x (o ++ SBound (Ok tt) :: mid) -> opening binddn bind_password o -> middle mid (length dns) ->
    length is = length dns -> items_ok 0 dns is mid -> good (check (mkPasswd (Running true) is x (o ++ SBound (Ok tt) :: mid))).
  Proof.
    intros is x o mid F O M L IT. unfold check. cbn. destruct (forallb finished is) eqn:E.
    - split; cbn.
      + rewrite <- (Bool.orb_false_r x). apply flag_app; [exact F|]. apply flag_none. intros q y [A|[A|[]]]; discriminate.
      + rewrite <- app_assoc. cbn. apply s_all_done; auto. eapply finished_done; eauto.
    - split; cbn; [exact F|]. exists o, mid. repeat split; auto.
  Qed.
  Lemma opening_no_fail : forall o, opening binddn bind_password o -> flag false o.
  Proof. intros o O. apply flag_none. intros q y A. destruct O; cbn in A; repeat (destruct A as [A|A]; [discriminate|]); exact A. Qed.

  Lemma update_good : forall w b k i0 dn i es x, good w -> w_phase w = Running b -> nth_error (w_items w) k = Some i0 ->
    (forall l, (match i0 with Finished => False | Waiting d => d = dn | Setting d _ => d = dn end -> item_hist k dn i0 l -> item_hist k dn i (l ++ es))) ->
    match i0 with Finished => False | Waiting d => d = dn | Setting d _ => d = dn end ->
    (forall e, In e es -> about e = Some k) -> flag x es -> good (update k (i, es, x) w).
  Proof.
    intros w b k i0 dn i es x [F H] P K HI I0 HA HF. unfold update. rewrite P in H |- *.
    assert (G0 : forall mid, items_ok 0 dns (w_items w) mid -> nth_error dns k = Some dn /\ item_hist k dn i0 (view k mid)).
    { intros mid IT. destruct (IT k i0 K) as (dn' & D & HH). cbn in HH. assert (E : dn' = dn).
      { destruct i0; cbn in HH; [destruct HH as [<- _]; exact I0|destruct HH as [<- _]; exact I0|destruct I0]. }
      subst dn'. auto. }
    destruct b.
    - destruct H as (o & mid & T & O & M & L & IT & U). destruct (G0 mid IT) as [D HH]. rewrite T, <- app_assoc. cbn [app].
      apply check_good; auto.
      + replace (o ++ SBound (Ok tt) :: mid ++ es) with ((o ++ SBound (Ok tt) :: mid) ++ es) by (now rewrite <- app_assoc).
        apply flag_app; [now rewrite <- T|exact HF].
      + intros e He. apply in_app_or in He. destruct He as [He|He]; [now apply M|]. exists k. split; [now apply HA|]. apply nth_error_Some. congruence.
      + now rewrite set_item_length.
      + eapply items_update; eauto.
    - unfold check. cbn [w_phase]. split; [cbn [w_exit w_trace]; now apply flag_app|]. cbn [w_phase w_items w_trace].
      destruct H as [(y & I & _)|(o & y & m1 & m2 & dn' & T & O & M & D & V & IT)]; [rewrite I in K; destruct k; discriminate|].
      right. destruct (G0 _ IT) as [D' HH].
      assert (KL : (k < length (w_items w))%nat) by (apply nth_error_Some; congruence).
      exists o, y, m1, (m2 ++ es), dn'. rewrite set_item_length. repeat split; auto.
      + rewrite T, <- !app_assoc. cbn. now rewrite <- app_assoc.
      + rewrite app_assoc. intros e He. apply in_app_or in He. destruct He as [He|He]; [now apply M|]. exists k. split; [now apply HA|lia].
      + rewrite app_assoc, view_app, V, (view_other _ es); [reflexivity|]. intros e He E. rewrite (HA e He) in E. injection E. lia.
      + rewrite app_assoc. eapply items_update; eauto.
  Qed.

  Lemma step_good : forall w i, good w -> good (step io binddn bind_password dns generated w i).
  Proof.
    intros w i G. destruct i as [typed|r typed now|k r now|k r]; unfold step; destruct (w_phase w) as [| |b|] eqn:P; try exact G.
    - destruct G as [F H]. rewrite P in H. rewrite H in F. unfold made. rewrite H. cbn [app].
      assert (X : w_exit w = false). { destruct (w_exit w); [|reflexivity]. destruct (proj1 F eq_refl) as (o & e & []). }
      rewrite X. destruct binddn as [|c d] eqn:B.
      + split; cbn; [|now apply o_anonymous]. apply flag_none. intros o y [A|[]]; discriminate.
      + assert (N : binddn <> []) by (rewrite B; discriminate). rewrite <- B. destruct bind_password as [pw|] eqn:W.
        * split; cbn; [|now apply o_given]. apply flag_none. intros o y [A|[]]; discriminate.
        * destruct typed as [pw|x]; split; cbn.
          -- apply flag_none. intros o y [A|[A|[]]]; discriminate.
          -- now apply o_typed.
          -- apply flag_none. intros o y [A|[A|[]]]; discriminate.
          -- left. exists x. repeat split; auto.
    - destruct G as [F H]. rewrite P in H. unfold bound. destruct r as [[]|x].
      + destruct (ask_all io generated 0 dns typed now) as [[[is es] x] e] eqn:A.
        destruct (ask_all_ok _ _ _ _ _ _ _ _ A) as (QI & QF & QA & QE).
        assert (F1 : flag (w_exit w || x) (w_trace w ++ SBound (Ok tt) :: es)).
        { apply flag_app; [exact F|]. apply flag_cons; [discriminate|exact QF]. }
        destruct e as [y|].
        * split; cbn [w_exit w_trace w_phase w_items].
          -- rewrite <- (Bool.orb_false_r (w_exit w || x)). rewrite app_comm_cons, app_assoc. apply flag_app; [exact F1|].
             apply flag_none. intros o z [B|[]]; discriminate.
          -- right. destruct QE as (dn & D & V). exists (w_trace w), y, es, [], dn. rewrite app_nil_r. repeat split; auto.
             intros ev Hv. destruct (QA ev Hv) as (j & B & C & _). exists j. split; [exact B|lia].
        * apply check_good; auto. intros ev Hv. destruct (QA ev Hv) as (j & B & _ & C). exists j. split; [exact B|lia].
      + split; cbn.
        * split; [intros _; exists None, x; apply in_or_app; right; right; now left|reflexivity].
        * now constructor.
    - destruct (nth_error (w_items w) k) as [[dn|dn pw|]|] eqn:K; try exact G. destruct generated eqn:GG; [|exact G]. rewrite <- GG in *.
      destruct (got_password io generated k dn r now) as [[i es] x] eqn:E. destruct (got_password_ok _ _ _ _ _ _ _ E) as (HI & HA & HF).
      apply update_good with (b := b) (i0 := Waiting dn) (dn := dn); auto. intros l _ [_ ->]. exact HI.
    - destruct (nth_error (w_items w) k) as [[dn|dn pw|]|] eqn:K; try exact G.
      destruct (was_set generated k dn pw r) as [[i es] x] eqn:E.
      assert (S0 : exists p, parse_dn io dn = Ok p).
      { destruct G as [_ H]. rewrite P in H. destruct b.
        - destruct H as (o & mid & T & O & M & L & IT & U). destruct (IT _ _ K) as (dn' & D & HH). cbn in HH. destruct HH as (<- & p & Q & _). eauto.
        - destruct H as [(y & I & _)|(o & y & m1 & m2 & dn' & T & O & M & D & V & IT)]; [rewrite I in K; destruct k; discriminate|].
          destruct (IT _ _ K) as (dn2 & D2 & HH). cbn in HH. destruct HH as (<- & p & Q & _). eauto. }
      destruct S0 as (p & Q). destruct (was_set_ok k dn pw r p i es x Q E) as (HI & HA & HF).
      apply update_good with (b := b) (i0 := Setting dn pw) (dn := dn); auto.
      intros l _ (_ & p' & Q' & ->). assert (p' = p) by congruence. subst p'. exact HI.
  Qed.
  Lemma run_good : forall l, good (run io binddn bind_password dns generated l).
  Proof.
    intro l. unfold run. assert (G : good passwd0) by (split; [exact flag_nil|reflexivity]). revert G. generalize passwd0.
    induction l as [|i l IH]; intros w G; [exact G|]. cbn. apply IH. now apply step_good.
  Qed.
  Theorem run_shape : forall l, shape io binddn bind_password dns generated (w_trace (run io binddn bind_password dns generated l)).
  Proof. intro l. apply good_shape, run_good. Qed.

  Notation shape := (shape io binddn bind_password dns generated).
  Notation came_from := (came_from bind_password generated).

  (** *** Where the events come from *)
  Lemma was_set_res : forall k dn pw r k' r', In (SResult k' r') (snd (fst (was_set generated k dn pw r))) -> k' = k /\ r' = r.
  Proof.
    intros k dn pw r k' r' H. unfold was_set in H. destruct r as [u|x]; cbn in H.
    - destruct H as [H|H]; [injection H; auto|]. destruct generated; [destruct H as [H|[]]; discriminate|destruct H].
    - destruct H as [H|[H|[]]]; [injection H; auto|discriminate].
  Qed.
  Definition plain (e : sevent) : Prop := match e with SSet _ _ _ | SPrint _ _ _ | SFail _ _ | SPwgen _ _ => True | _ => False end.
  Lemma was_set_events : forall k dn pw r e, In e (snd (fst (was_set generated k dn pw r))) -> e = SResult k r \/ plain e.
  Proof.
    intros k dn pw r e H. unfold was_set in H. destruct r as [u|x]; cbn in H.
    - destruct H as [H|H]; [auto|]. destruct generated; [destruct H as [<-|[]]; cbn; auto|destruct H].
    - destruct H as [H|[<-|[]]]; cbn; auto.
  Qed.
  Lemma got_password_events : forall k dn r now e, In e (snd (fst (got_password io generated k dn r now))) ->
    e = SGot k r \/ (exists u, e = SResult k u /\ now k = Some u) \/ plain e.
  Proof.
    intros k dn r now e H. unfold got_password in H. destruct r as [l|x].
    - destruct l as [|pw [|pw' l]].
      + destruct H as [H|[]]; auto.
      + destruct (parse_dn io dn) as [p|y]; [|destruct H as [H|[]]; auto]. destruct (now k) as [u|] eqn:N.
        * pose proof (was_set_events k dn pw u e) as W. destruct (was_set generated k dn pw u) as [[i es] x]. cbn in H, W.
          destruct H as [H|[H|H]]; [auto|right; right; now subst|]. destruct (W H) as [->|Q]; eauto.
        * destruct H as [H|[H|[]]]; [auto|right; right; now subst].
      + destruct H as [H|[]]; auto.
    - cbn in H. destruct H as [H|H]; [auto|]. right; right.
      assert (Q : (match x with EUser 72 => [SPwgen k x] | _ => [] end) = [] \/ (match x with EUser 72 => [SPwgen k x] | _ => [] end) = [SPwgen k x]).
      { destruct x; auto. destruct tag as [|c|c]; auto. repeat (destruct c as [c|c|]; auto). }
      destruct Q as [Q|Q]; rewrite Q in H; [destruct H|]. destruct H as [<-|[]]. exact I.
  Qed.
  Lemma ask_all_events : forall u typed now l k e, In e (snd (fst (fst (ask_all io generated k l typed now)))) -> came_from (IBound (Ok u) typed now) e.
  Proof.
    intros u typed now. induction l as [|dn l IH]; intros k e H; cbn [ask_all] in H; [destruct H|].
    assert (A0 : came_from (IBound (Ok u) typed now) (if generated then SStart k else SAsk k dn)) by (destruct generated; exact I).
    unfold ask in H. destruct (typed k) as [pw|x] eqn:T; [|destruct H as [<-|[]]; exact A0].
    specialize (IH (S k) e). destruct (ask_all io generated (S k) l typed now) as [[[is es2] x2] e2]. cbn in IH.
    pose proof (got_password_events k dn (Ok [pw]) now e) as W.
    destruct (got_password io generated k dn (Ok [pw]) now) as [[i es] x] eqn:G. cbn in W.
    destruct generated eqn:GG; cbn in H.
    - destruct H as [<-|H]; [exact A0|now apply IH].
    - destruct H as [<-|H]; [exact A0|]. apply in_app_or in H. destruct H as [H|H]; [|now apply IH].
      destruct (W H) as [->|[(v & -> & N)|Q]].
      + cbn. eauto.
      + cbn. exact N.
      + destruct e; try destruct Q; exact I.
  Qed.
  Lemma check_events : forall w e, In e (w_trace (check w)) -> In e (w_trace w) \/ e = SClose \/ e = SStop.
  Proof.
    intros w e H. unfold check in H. destruct (w_phase w) as [| |[|]|]; auto. destruct (forallb finished (w_items w)); auto. cbn in H.
    apply in_app_or in H. destruct H as [H|[H|[H|[]]]]; auto.
  Qed.
  Lemma step_from : forall w i e, In e (w_trace (step io binddn bind_password dns generated w i)) -> In e (w_trace w) \/ came_from i e.
  Proof.
    intros w i e H. destruct i as [typed|r typed now|k r now|k r]; unfold step in H; destruct (w_phase w) as [| |b|] eqn:P; auto.
    - unfold made in H. destruct binddn as [|c d] eqn:B; cbn in H.
      + apply in_app_or in H. destruct H as [H|[<-|[]]]; [auto|right; exact I].
      + rewrite <- B in H. destruct bind_password as [pw|] eqn:W; [|destruct typed as [pw|x]]; cbn in H; apply in_app_or in H.
        * destruct H as [H|[<-|[]]]; cbn; auto.
        * destruct H as [H|[<-|[<-|[]]]]; cbn; auto.
        * destruct H as [H|[<-|[<-|[]]]]; cbn; auto.
    - unfold bound in H. destruct r as [u|x].
      + pose proof (ask_all_events u typed now dns 0 e) as W. destruct (ask_all io generated 0 dns typed now) as [[[is es] x] [y|]] eqn:A; cbn in W.
        * cbn in H. apply in_app_or in H. destruct H as [H|[<-|H]]; [auto|right; reflexivity|]. apply in_app_or in H.
          destruct H as [H|[<-|[]]]; [auto|]. right. cbn. clear W. revert A. generalize 0%nat is es x. clear. induction dns as [|dn l IH]; intros k is es x A; [discriminate|].
          cbn in A. unfold ask in A at 1. destruct (typed k) as [pw|z] eqn:T; [|exists k; congruence].
          destruct (if generated then _ else _) as [[i es1] x1]. destruct (ask_all io generated (S k) l typed now) as [[[is2 es2] x2] e2] eqn:R.
          injection A as <- <- <- ->. exact (IH _ _ _ _ R).
        * apply check_events in H. cbn in H. destruct H as [H|[->| ->]]; [|right; exact I|right; exact I].
          apply in_app_or in H. destruct H as [H|[<-|H]]; [auto|right; reflexivity|auto].
      + cbn in H. apply in_app_or in H. destruct H as [H|[<-|[<-|[<-|[<-|[]]]]]]; cbn; auto.
    - destruct (nth_error (w_items w) k) as [[dn|dn pw|]|]; auto. destruct generated eqn:G; auto.
      pose proof (got_password_events k dn r now e) as W. rewrite G in W. unfold update in H.
      destruct (got_password io true k dn r now) as [[i es] x]. cbn in W. apply check_events in H. cbn in H.
      destruct H as [H|[->| ->]]; [|right; exact I|right; exact I]. apply in_app_or in H. destruct H as [H|H]; [auto|right].
      destruct (W H) as [->|[(v & -> & N)|Q]].
      + cbn. auto.
      + cbn. auto.
      + destruct e; try destruct Q; exact I.
    - destruct (nth_error (w_items w) k) as [[dn|dn pw|]|]; auto.
      pose proof (was_set_events k dn pw r e) as W. unfold update in H.
      destruct (was_set generated k dn pw r) as [[i es] x]. cbn in W. apply check_events in H. cbn in H.
      destruct H as [H|[->| ->]]; [|right; exact I|right; exact I]. apply in_app_or in H. destruct H as [H|H]; [auto|right].
      destruct (W H) as [->|Q]; [cbn; auto|]. destruct e; try destruct Q; exact I.
  Qed.
  Theorem run_from : forall l e, In e (w_trace (run io binddn bind_password dns generated l)) -> exists i, In i l /\ came_from i e.
  Proof.
    intros l e H. unfold run in H. assert (X : In e (w_trace passwd0) \/ exists i, In i l /\ came_from i e); [|destruct X as [[]|X]; exact X].
    revert H. generalize passwd0. induction l as [|i l IH]; intros w H; [auto|]. cbn in H. destruct (IH _ H) as [A|(j & J & C)].
    - destruct (step_from _ _ _ A) as [B|B]; [auto|]. right. exists i. split; [now left|exact B].
    - right. exists j. split; [now right|exact C].
  Qed.

  (** *** What the shape says *)
  Lemma opening_view : forall o k, opening binddn bind_password o -> view k o = [].
  Proof. intros o k O. destruct O; reflexivity. Qed.
  Theorem shape_view : forall tr k, shape tr -> view k tr = [] \/ exists dn b, nth_error dns k = Some dn /\ history k dn (view k tr) b.
  Proof.
    intros tr k H. destruct H as [|x B W|o O|o x O|o mid O M HH N|o mid O M HH|o j x m1 m2 O J M HH V].
    - now left.
    - now left.
    - left. now apply opening_view.
    - left. rewrite view_app, opening_view by assumption. reflexivity.
    - rewrite view_app, (opening_view o k O). change (view k (SBound (Ok tt) :: mid)) with (view k mid). cbn [app].
      destruct (nth_error dns k) as [dn|] eqn:D.
      + right. destruct (HH k dn D) as (b & Q). eauto.
      + left. apply view_other. intros e He E. destruct (M e He) as (k' & E' & L). rewrite E in E'. injection E' as <-. apply nth_error_None in D. lia.
    - rewrite view_app, (opening_view o k O). change (view k (SBound (Ok tt) :: mid ++ [SClose; SStop])) with (view k (mid ++ [SClose; SStop])). cbn [app].
      rewrite view_app. change (view k [SClose; SStop]) with (@nil sevent). rewrite app_nil_r. destruct (nth_error dns k) as [dn|] eqn:D.
      + right. exists dn, true. split; [reflexivity|]. now apply HH.
      + left. apply view_other. intros e He E. destruct (M e He) as (k' & E' & L). rewrite E in E'. injection E' as <-. apply nth_error_None in D. lia.
    - rewrite view_app, (opening_view o k O). change (view k (SBound (Ok tt) :: m1 ++ SRaised x :: m2)) with (view k (m1 ++ SRaised x :: m2)). cbn [app].
      rewrite view_app. change (view k (SRaised x :: m2)) with (view k m2). rewrite <- view_app.
      destruct (Nat.lt_trichotomy k j) as [L|[->|L]].
      + right. assert (K : (k < length dns)%nat) by lia. apply nth_error_Some in K. destruct (nth_error dns k) as [dn|] eqn:D; [|congruence].
        destruct (HH k dn D L) as (b & Q). eauto.
      + right. apply nth_error_Some in J. destruct (nth_error dns j) as [dn|] eqn:D; [|congruence].
        exists dn, false. rewrite (V dn eq_refl). split; [reflexivity|constructor].
      + left. apply view_other. intros e He E. destruct (M e He) as (k' & E' & L'). rewrite E in E'. injection E' as <-. lia.
  Qed.
  Lemma event_history : forall tr e k, shape tr -> In e tr -> about e = Some k ->
    exists dn b, nth_error dns k = Some dn /\ history k dn (view k tr) b /\ In e (view k tr).
  Proof.
    intros tr e k H He A. assert (V : In e (view k tr)) by (now apply in_view). destruct (shape_view tr k H) as [E|(dn & b & D & Q)].
    - rewrite E in V. destruct V.
    - eauto.
  Qed.

  Lemma history_sound : forall k dn l b e, history k dn l b -> In e l ->
    match e with
    | SSet k' d pw => k' = k /\ parse_dn io dn = Ok d /\ In (SGot k (Ok [pw])) l
    | SPrint k' dn' pw => k' = k /\ dn' = dn /\ generated = true /\ (exists d, In (SSet k d pw) l) /\ exists u, In (SResult k (Ok u)) l
    | SFail o x => o = Some k /\ In (SResult k (Err x)) l
    | SResult k' (Err x) => k' = k /\ In (SFail (Some k) x) l
    | SResult k' (Ok _) => k' = k /\ exists pw, (exists d, In (SSet k d pw) l) /\ (generated = true -> In (SPrint k dn pw) l)
    | SPwgen k' x => x = EPwgen
    | _ => True
    end.
  Proof.
    intros k dn l b e H He. assert (A : forall o x, asked k dn <> SFail o x) by apply asked_no_fail.
    assert (A1 : match asked k dn with SAsk _ _ | SStart _ => True | _ => False end) by (unfold PasswdSpec.asked; destruct generated; exact I).
    destruct H; cbn in He; repeat (destruct He as [<-|He]; [try exact I; try (destruct (asked k dn); try destruct A1; exact I); cbn; eauto 12|]); try (destruct He; fail).
    - split; [reflexivity|]. exists pw. split; [eauto 12|]. intros ->. cbn. auto 12.
    - destruct generated; [|destruct He]. destruct He as [<-|[]]. cbn. eauto 15.
  Qed.
  Lemma history_once : forall k dn l b d pw d' pw', history k dn l b -> In (SSet k d pw) l -> In (SSet k d' pw') l -> d = d' /\ pw = pw'.
  Proof.
    intros k dn l b d pw d' pw' H A B.
    assert (N : forall q r, asked k dn <> SSet k q r) by (intros; unfold PasswdSpec.asked; destruct generated; discriminate).
    assert (X : exists q, forall a c, In (SSet k a c) l -> (a, c) = q).
    { destruct H as [|x|  |l L|pw0 x P|pw0 d0 P|pw0 d0 u P|pw0 d0 x P]; [exists (d, pw)|exists (d, pw)|exists (d, pw)|exists (d, pw)|exists (d, pw)|exists (d0, pw0)|exists (d0, pw0)|exists (d0, pw0)];
        intros a c Q; cbn in Q; destruct Q as [Q|Q]; try (exfalso; exact (N _ _ Q));
        repeat (destruct Q as [Q|Q]; [try discriminate Q; injection Q; intros; now subst|]); try destruct Q as [].
      destruct generated; [destruct Q as [Q|[]]; discriminate|destruct Q]. }
    destruct X as (q & X). pose proof (X _ _ A) as A'. pose proof (X _ _ B) as B'. rewrite <- B' in A'. now injection A'.
  Qed.
  Lemma opening_only : forall o e, opening binddn bind_password o -> In e o -> match e with SAskBind _ | SBind _ => True | _ => False end.
  Proof. intros o e O H. destruct O; cbn in H; repeat (destruct H as [<-|H]; [exact I|]); destruct H. Qed.
  (** The failures reported are those of the bind and of the changes. *)
  Lemma bind_fail : forall tr x, shape tr -> (In (SFail None x) tr <-> In (SBound (Err x)) tr).
  Proof.
    intros tr x H. assert (Z : forall (m : list sevent) (Q : sevent -> Prop), (forall e, In e m -> exists k, about e = Some k /\ Q e) -> ~ In (SFail None x) m /\ ~ In (SBound (Err x)) m).
    { intros m Q M. split; intro B; destruct (M _ B) as (k & E & _); discriminate. }
    destruct H as [|y B W|o O|o y O|o mid O M HH N|o mid O M HH|o j y m1 m2 O J M HH V].
    - reflexivity.
    - split; intros [A|[A|[]]]; discriminate.
    - split; intro A; destruct (opening_only _ _ O A).
    - split; intro A; apply in_app_or in A; (destruct A as [A|A]; [destruct (opening_only _ _ O A)|]); apply in_or_app; right;
        destruct A as [A|[A|[A|[A|[]]]]]; try discriminate; injection A as ->; cbn; auto.
    - destruct (Z mid (fun _ => True)) as [Z1 Z2]; [intros e He; destruct (M e He) as (k & E & _); eauto|].
      split; intro A; apply in_app_or in A; (destruct A as [A|[A|A]]; [destruct (opening_only _ _ O A)|discriminate|exfalso; auto]).
    - destruct (Z mid (fun _ => True)) as [Z1 Z2]; [intros e He; destruct (M e He) as (k & E & _); eauto|].
      split; intro A; apply in_app_or in A; (destruct A as [A|[A|A]]; [destruct (opening_only _ _ O A)|discriminate|]); apply in_app_or in A;
        (destruct A as [A|[A|[A|[]]]]; [exfalso; auto|discriminate|discriminate]).
    - destruct (Z (m1 ++ m2) (fun _ => True)) as [Z1 Z2]; [intros e He; destruct (M e He) as (k & E & _); eauto|].
      split; intro A; apply in_app_or in A; (destruct A as [A|[A|A]]; [destruct (opening_only _ _ O A)|discriminate|]); apply in_app_or in A;
        (destruct A as [A|[A|A]]; [exfalso|discriminate|exfalso]); solve [apply Z1; apply in_or_app; auto|apply Z2; apply in_or_app; auto].
  Qed.
  Theorem run_exit : forall l, let w := run io binddn bind_password dns generated l in
    exit_status w = 1%Z <-> (exists x, In (SBound (Err x)) (w_trace w)) \/ (exists k x, In (SResult k (Err x)) (w_trace w)).
  Proof.
    intros l w. assert (F : flag (w_exit w) (w_trace w)) by apply run_good. assert (H : shape (w_trace w)) by apply run_shape.
    assert (E : exit_status w = 1%Z <-> w_exit w = true) by (unfold exit_status; destruct (w_exit w); split; auto; discriminate).
    unfold flag in F. rewrite E, F. split.
    - intros (o & x & A). destruct o as [k|].
      + right. exists k, x. destruct (event_history _ _ k H A eq_refl) as (dn & b & D & Q & V). apply (history_sound _ _ _ _ _ Q) in V.
        destruct V as [_ V]. apply in_view in V. apply V.
      + left. exists x. now apply bind_fail.
    - intros [(x & A)|(k & x & A)].
      + exists None, x. now apply bind_fail.
      + exists (Some k), x. destruct (event_history _ _ k H A eq_refl) as (dn & b & D & Q & V). apply (history_sound _ _ _ _ _ Q) in V.
        destruct V as [_ V]. apply in_view in V. apply V.
  Qed.
  Theorem run_raised : forall l x, let w := run io binddn bind_password dns generated l in
    In (SRaised x) (w_trace w) -> ~ In SStop (w_trace w) /\ ~ In SClose (w_trace w).
  Proof.
    intros l x w A. assert (H : shape (w_trace w)) by apply run_shape. revert A. generalize (w_trace w), H. clear w H. intros tr H A.
    destruct H as [|y B W|o O|o y O|o mid O M HH N|o mid O M HH|o j y m1 m2 O J M HH V].
    - destruct A.
    - split; intros [B'|[B'|[]]]; discriminate.
    - destruct (opening_only _ _ O A).
    - exfalso. apply in_app_or in A. destruct A as [A|[A|[A|[A|[A|[]]]]]]; try discriminate. destruct (opening_only _ _ O A).
    - exfalso. apply in_app_or in A. destruct A as [A|[A|A]]; [destruct (opening_only _ _ O A)|discriminate|]. destruct (M _ A) as (k & E & _). discriminate.
    - exfalso. apply in_app_or in A. destruct A as [A|[A|A]]; [destruct (opening_only _ _ O A)|discriminate|]. apply in_app_or in A.
      destruct A as [A|[A|[A|[]]]]; try discriminate. destruct (M _ A) as (k & E & _). discriminate.
    - split; intro C; apply in_app_or in C; (destruct C as [C|[C|C]]; [destruct (opening_only _ _ O C)|discriminate|]); apply in_app_or in C;
        (destruct C as [C|[C|C]]; [|discriminate|]); 
        (match type of C with In ?e _ => assert (C' : In e (m1 ++ m2)) by (apply in_or_app; auto) end; destruct (M _ C') as (k & E & _); discriminate E).
  Qed.
  Theorem run_set : forall l k d pw, let tr := w_trace (run io binddn bind_password dns generated l) in
    In (SSet k d pw) tr -> exists dn, nth_error dns k = Some dn /\ parse_dn io dn = Ok d /\ In (SGot k (Ok [pw])) tr /\
      In (SBound (Ok tt)) tr /\ (forall d' pw', In (SSet k d' pw') tr -> d' = d /\ pw' = pw).
  Proof.
    intros l k d pw tr A. assert (H : shape tr) by apply run_shape. clearbody tr. destruct (event_history _ _ k H A eq_refl) as (dn & b & D & Q & V).
    pose proof (history_sound _ _ _ _ _ Q V) as (_ & P & G). apply in_view in G. exists dn. split; [exact D|]. split; [exact P|]. split; [apply G|]. split.
    - clear Q V G. destruct H as [|y B W|o O|o y O|o mid O M HH N|o mid O M HH|o j y m1 m2 O J M HH V'].
      + destruct A.
      + destruct A as [A|[A|[]]]; discriminate.
      + destruct (opening_only _ _ O A).
      + apply in_app_or in A. destruct A as [A|[A|[A|[A|[A|[]]]]]]; try discriminate. destruct (opening_only _ _ O A).
      + apply in_or_app. right. now left.
      + apply in_or_app. right. now left.
      + apply in_or_app. right. now left.
    - intros d' pw' A'. eapply history_once; [exact Q| |exact V]. apply in_view. auto.
  Qed.
  Theorem run_print : forall l k dn pw, let tr := w_trace (run io binddn bind_password dns generated l) in
    In (SPrint k dn pw) tr <-> generated = true /\ nth_error dns k = Some dn /\ (exists d, In (SSet k d pw) tr) /\ exists u, In (SResult k (Ok u)) tr.
  Proof.
    intros l k dn pw tr. assert (H : shape tr) by apply run_shape. split.
    - intro A. destruct (event_history _ _ k H A eq_refl) as (dn' & b & D & Q & V).
      destruct (history_sound _ _ _ _ _ Q V) as (_ & -> & G & (d & S1) & (u & R)). apply in_view in S1, R. split; [exact G|]. split; [exact D|].
      split; [exists d; apply S1|exists u; apply R].
    - intros (G & D & (d & S1) & (u & R)). destruct (event_history _ _ k H R eq_refl) as (dn' & b & D' & Q & V).
      assert (dn' = dn) by congruence. subst dn'. destruct (history_sound _ _ _ _ _ Q V) as (_ & pw' & (d' & S2) & P).
      assert (S1' : In (SSet k d pw) (view k tr)) by (now apply in_view).
      destruct (history_once _ _ _ _ _ _ _ _ Q S1' S2) as [_ <-]. specialize (P G). now apply in_view in P.
  Qed.
End Proofs.
(** The trace only grows. *)
Lemma step_keeps : forall io b p dns g w i e, In e (w_trace w) -> In e (w_trace (step io b p dns g w i)).
Proof.
  intros io b p dns g w i e H.
  assert (C : forall v, In e (w_trace v) -> In e (w_trace (check v))).
  { intros v A. unfold check. destruct (w_phase v) as [| |[|]|]; auto. destruct (forallb finished (w_items v)); auto. cbn. apply in_or_app; auto. }
  assert (U : forall k q, In e (w_trace (update k q w))).
  { intros k [[j es] x]. unfold update. apply C. cbn. apply in_or_app; auto. }
  destruct i as [typed|r typed now|k r now|k r]; unfold step; destruct (w_phase w); auto.
  - unfold made. destruct b; [|destruct p; [|destruct typed]]; cbn; apply in_or_app; auto.
  - unfold bound. destruct r; [|cbn; apply in_or_app; auto]. destruct (ask_all io g 0 dns typed now) as [[[is es] x] [y|]]; [cbn; apply in_or_app; auto|].
    apply C. cbn. apply in_or_app; auto.
  - destruct (nth_error (w_items w) k) as [[dn|dn pw|]|]; auto. destruct g; auto.
  - destruct (nth_error (w_items w) k) as [[dn|dn pw|]|]; auto.
Qed.
