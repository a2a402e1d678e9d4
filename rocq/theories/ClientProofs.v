(** Invariants of the client. *)
From Verif Require Import Base BaseFacts BerModel LdapModel StreamModel ClientModel ClientSpec.

Lemma sents_app a b : sents (a ++ b) = sents a ++ sents b. Proof. apply flat_map_app. Qed.
Lemma completions_app a b : completions (a ++ b) = completions a ++ completions b. Proof. apply flat_map_app. Qed.
Lemma snoc_cases {A} (t : list A) e a x b : t ++ [e] = a ++ x :: b -> (b = [] /\ a = t /\ x = e) \/ exists b', b = b' ++ [e] /\ t = a ++ x :: b'.
Proof.
  destruct b as [|y b] using rev_ind.
  - intros E. apply app_inj_tail in E as (-> & ->). left. auto.
  - clear IHb. intros E. right. exists b. rewrite app_comm_cons, app_assoc in E. apply app_inj_tail in E as (-> & ->). auto.
Qed.

Lemma NoDup_app_snoc {A} (l : list A) x : NoDup l -> ~ In x l -> NoDup (l ++ [x]).
Proof.
  induction 1 as [|y l N D IH]; intros H; cbn; [constructor; [intros []|constructor]|].
  constructor; [|apply IH; firstorder]. intros I. apply in_app_or in I as [I|[<-|[]]]; [auto|]. apply H. now left.
Qed.

(** What may come after [a] *)
Definition idle_at (a : list tev) : Prop := forall j, In j (sents a) -> In j (completions a).
Definition legal (a : list tev) (e : tev) : Prop :=
  match e with
  | TSent i op tls => 0 < i /\ ~ In i (sents a) /\ ~ In TLost a /\ (tls = true -> tls_request op /\ idle_at a)
  | TWritten _ => ~ In TLost a
  | TFired i v => outstanding a i /\ ~ In TLost a /\ exists c a', a = a' ++ [TGot i v c] /\ In i (sents a')
  | TCalled i v _ => outstanding a i /\ ~ In TLost a /\ last_got a i v
  | TFailed i => outstanding a i /\ In TLost a
  | TTls i => exists a1 a2 op v c, a = a1 ++ TSent i op true :: a2 ++ [TGot i v c; TFired i v] /\ tls_request op /\ idle_at a1 /\ tls_ok v
  | TLost => ~ In TLost a
  | _ => True
  end.
Definition wf (t : list tev) : Prop := forall a e b, t = a ++ e :: b -> legal a e.
Lemma wf_snoc t e : wf t -> legal t e -> wf (t ++ [e]).
Proof.
  intros W L a x b E. apply snoc_cases in E as [(-> & -> & ->)|(b' & -> & E)]; [exact L|]. eapply W; eauto.
Qed.

(** Every response to an outstanding request is given to it before the next one is looked at. *)
Definition serves (i : Z) (v : obj) (e : tev) : Prop := e = TFired i v \/ (exists r, e = TCalled i v r) \/ e = TError EAssert.
Definition served (i : Z) (v : obj) (b : list tev) : Prop :=
  exists p e q, b = p ++ e :: q /\ flat_map got p = [] /\ serves i v e.
Definition answered (t : list tev) : Prop :=
  forall a i v c b, t = a ++ TGot i v c :: b -> outstanding a i -> served i v b.
Lemma served_app i v b c : served i v b -> served i v (b ++ c).
Proof. intros (p & e & q & -> & G & S0). exists p, e, (q ++ c). rewrite <- app_assoc. auto. Qed.
Lemma answered_app t r : answered t -> flat_map got r = [] -> answered (t ++ r).
Proof.
  intros A G. induction r as [|e r IH] using rev_ind; [now rewrite app_nil_r|].
  rewrite flat_map_app in G. apply app_eq_nil in G as (G1 & G2). specialize (IH G1). rewrite app_assoc.
  intros a i v c b E O. apply snoc_cases in E as [(-> & -> & <-)|(b' & -> & E)]; [discriminate|].
  apply served_app. eapply IH; eauto.
Qed.
Lemma app_split {A} (l1 l2 l3 l4 : list A) : l1 ++ l2 = l3 ++ l4 ->
  exists l, (l1 = l3 ++ l /\ l4 = l ++ l2) \/ (l3 = l1 ++ l /\ l2 = l ++ l4).
Proof.
  revert l3. induction l1 as [|x l1 IH]; intros l3 E; cbn in E.
  - exists l3. right. auto.
  - destruct l3 as [|y l3]; cbn in E; [exists (x :: l1); left; auto|]. injection E as -> E.
    destruct (IH l3 E) as (l & [(-> & ->)|(-> & ->)]); exists l; [left|right]; auto.
Qed.
Lemma answered_got t i v c r : answered t -> flat_map got r = [] -> (outstanding t i -> served i v r) -> answered (t ++ TGot i v c :: r).
Proof.
  intros A G H a i' v' c' b E O. apply app_split in E as (l & [(-> & E)|(-> & E)]).
  - destruct l as [|x l]; cbn in E.
    + injection E as -> -> -> ->. rewrite app_nil_r in H. auto.
    + injection E as <- ->. apply served_app. eapply A; eauto.
  - destruct l as [|x l]; cbn in E.
    + injection E as <- <- <- <-. rewrite app_nil_r in O. auto.
    + injection E as <- E. rewrite E, flat_map_app in G. apply app_eq_nil in G as (_ & G). discriminate.
Qed.

Lemma outstanding_app t r i : outstanding t i -> completions r = [] -> outstanding (t ++ r) i.
Proof. intros (A & C) R. split; [rewrite sents_app; apply in_or_app; now left|]. now rewrite completions_app, R, app_nil_r. Qed.
Lemma last_got_app t r i v : last_got t i v -> flat_map got r = [] -> last_got (t ++ r) i v.
Proof. intros (a & b & c & -> & G) R. exists a, (b ++ r), c. rewrite <- app_assoc. cbn. now rewrite flat_map_app, G, R. Qed.

(** [b] is the request whose callback is running. *)
Record Inv (b : option Z) (s : cstate) : Prop := {
  i_wf : wf (c_trace s);
  i_nd : NoDup (map fst (c_onwire s));
  i_pos : 0 < c_next s;
  i_lt : forall i, In i (sents (c_trace s)) -> 0 < i < c_next s;
  i_mem : forall i, In i (map fst (c_onwire s)) <-> In i (sents (c_trace s)) /\ (~ In i (completions (c_trace s)) \/ b = Some i);
  i_busy : forall i, b = Some i -> In i (completions (c_trace s));
  i_tls : forall i w, In (i, w) (c_onwire s) -> w_tls w = true -> exists op, In (TSent i op true) (c_trace s);
  i_lost : In TLost (c_trace s) -> c_connected s = Some false }.

(** What the user does in between *)
Definition ext (s s' : cstate) : Prop := c_buffer s' = c_buffer s /\ c_connected s' = c_connected s /\ exists r, c_trace s' = c_trace s ++ r /\ flat_map got r = [] /\ completions r = [].
Lemma ext_refl s : ext s s.
Proof. split; [reflexivity|]. split; [reflexivity|]. exists []. now rewrite app_nil_r. Qed.
Lemma ext_trans a b c : ext a b -> ext b c -> ext a c.
Proof.
  intros (B1 & C1 & r1 & E1 & G1 & D1) (B2 & C2 & r2 & E2 & G2 & D2). split; [congruence|]. split; [congruence|].
  exists (r1 ++ r2). rewrite E2, E1, app_assoc, flat_map_app, completions_app, G1, G2, D1, D2. auto.
Qed.
Lemma ext_emit e s : got e = [] -> completes e = [] -> ext s (emit e s).
Proof. intros G C. split; [reflexivity|]. split; [reflexivity|]. exists [e]. cbn. now rewrite G, C. Qed.

(** An event that neither sends nor completes *)
Lemma inv_emit b e s : Inv b s -> sents [e] = [] -> completes e = [] -> e <> TLost -> legal (c_trace s) e -> Inv b (emit e s).
Proof.
  intros [W ND P LT M BZ TL LO] S0 C NL L. cbn [sents flat_map] in S0.
  assert (ES : sents (c_trace s ++ [e]) = sents (c_trace s)) by (rewrite sents_app; unfold sents at 2; cbn [flat_map]; rewrite S0; now rewrite app_nil_r).
  assert (EC : completions (c_trace s ++ [e]) = completions (c_trace s)) by (rewrite completions_app; unfold completions at 2; cbn [flat_map]; rewrite C; now rewrite app_nil_r).
  constructor; cbn [c_trace c_onwire c_next c_connected emit]; rewrite ?ES, ?EC; auto.
  - now apply wf_snoc.
  - intros i w I T. destruct (TL i w I T) as (op & J). exists op. apply in_or_app. now left.
  - intros I. apply in_app_or in I as [I|[I|[]]]; [auto|congruence].
Qed.
Lemma inv_next b s n : Inv b s -> c_next s <= n -> Inv b (set_next n s).
Proof. intros [W ND P LT M BZ TL LO] L. constructor; cbn; auto; [lia|]. intros i I. specialize (LT i I). lia. Qed.
Lemma inv_due b s n : Inv b s -> Inv b (set_due n s).
Proof. intros [W ND P LT M BZ TL LO]. constructor; cbn; auto. Qed.
Lemma inv_buffer b s n : Inv b s -> Inv b (set_buffer n s).
Proof. intros [W ND P LT M BZ TL LO]. constructor; cbn; auto. Qed.
Ltac neutral := apply inv_emit; [assumption|reflexivity|reflexivity|discriminate|try exact Logic.I; auto].

Lemma completions_sent b s i : Inv b s -> In i (completions (c_trace s)) -> In i (sents (c_trace s)).
Proof.
  intros V I. apply in_flat_map in I as (e & J & K). apply in_split in J as (p & q & E).
  pose proof (i_wf _ _ V p e q E) as L. rewrite E, sents_app. apply in_or_app. left.
  destruct e; cbn in K; try now destruct K.
  - destruct K as [<-|[]]. apply L.
  - destruct K as [<-|[]]. apply L.
  - destruct r as [[]|]; try now destruct K. destruct K as [<-|[]]. apply L.
Qed.

(** Registering a request *)
Lemma inv_sent b s op tls w : Inv b s -> c_connected s = Some true -> w_tls w = tls ->
  (tls = true -> tls_request op /\ c_onwire s = [] /\ b = None) ->
  Inv b (emit (TSent (c_next s) op tls) (set_onwire (c_onwire s ++ [(c_next s, w)]) (set_next (c_next s + 1) s))).
Proof.
  intros V C WT H. pose proof V as [W ND P LT M BZ TL LO].
  assert (NI : ~ In (c_next s) (sents (c_trace s))) by (intros X; specialize (LT _ X); lia).
  assert (NO : ~ In (c_next s) (map fst (c_onwire s))) by (intros X; apply M in X; tauto).
  assert (NC : ~ In (c_next s) (completions (c_trace s))) by (intros X; apply NI; eapply completions_sent; eauto).
  constructor; cbn [c_trace c_onwire c_next c_connected emit set_onwire set_next].
  - apply wf_snoc; [exact W|]. cbn. split; [exact P|]. split; [exact NI|]. split; [intros X; rewrite (LO X) in C; discriminate|].
    intros T. destruct (H T) as (R & O & B0). split; [exact R|]. intros j J.
    destruct (in_dec Z.eq_dec j (completions (c_trace s))) as [|N]; [assumption|]. exfalso.
    assert (X : In j (map fst (c_onwire s))) by (apply M; auto). rewrite O in X. destruct X.
  - rewrite map_app. apply NoDup_app_snoc; auto.
  - lia.
  - intros i. rewrite sents_app. cbn. intros I. apply in_app_or in I as [I|[<-|[]]]; [specialize (LT _ I); lia|lia].
  - intros i. rewrite map_app, sents_app, completions_app. cbn [map fst app sents flat_map completions completes]. rewrite app_nil_r, !in_app_iff, M. cbn [In]. split.
    + intros [(A & D)|[<-|[]]]; [split; auto|]. split; [auto|]. now left.
    + intros ([A|[<-|[]]] & D); [left; auto|right; auto].
  - intros i E. rewrite completions_app. apply in_or_app. left. auto.
  - intros i w' I T. apply in_app_or in I as [I|[I|[]]].
    + destruct (TL i w' I T) as (o & J). exists o. apply in_or_app. now left.
    + injection I as <- <-. exists op. rewrite WT in T. subst tls. rewrite T. apply in_or_app. right. now left.
  - intros I. apply in_app_or in I as [I|[I|[]]]; [auto|discriminate].
Qed.

Lemma do_send_ok b k op controls tls s : Inv b s ->
  (tls = true -> tls_request op /\ c_onwire s = [] /\ b = None /\ k = KSend) ->
  Inv b (do_send k op controls tls s) /\ ext s (do_send k op controls tls s) /\
  (c_connected s <> Some true -> c_trace (do_send k op controls tls s) = c_trace s ++ [TRaised ELostConn] /\
     c_onwire (do_send k op controls tls s) = c_onwire s).
Proof.
  intros V H. unfold do_send. destruct (c_connected s) as [[]|] eqn:C.
  2,3: (split; [neutral|]; split; [now apply ext_emit|auto]).
  cbn [c_onwire set_next].
  assert (V1 : Inv b (set_next (c_next s + 1) s)) by (apply inv_next; [exact V|lia]).
  assert (X1 : ext s (set_next (c_next s + 1) s)) by (split; [reflexivity|]; split; [reflexivity|]; exists []; now rewrite app_nil_r).
  assert (R : forall e, Inv b (raised e (set_next (c_next s + 1) s)) /\ ext s (raised e (set_next (c_next s + 1) s))).
  { intros e. split; [neutral|]. eapply ext_trans; [exact X1|]. now apply ext_emit. }
  destruct (dict_has (c_next s) (c_onwire s)). { destruct (R EAssert). split; [auto|split; [auto|congruence]]. }
  destruct (negb (Bool.eqb (needs_answer op) match k with KNoResponse => false | _ => true end)). { destruct (R EAssert). split; [auto|split; [auto|congruence]]. }
  set (msg := OMessage _ _ _ _). clearbody msg.
  assert (F : forall s1, Inv b s1 -> ext s s1 -> c_connected s1 = Some true ->
    Inv b (match toWire msg with Ok w => emit (TWritten w) s1 | Err e => raised e s1 end) /\
    ext s (match toWire msg with Ok w => emit (TWritten w) s1 | Err e => raised e s1 end)).
  { intros s1 V2 X2 C2. destruct (toWire msg) as [w|e].
    - split; [neutral; cbn; intros I; apply (i_lost _ _ V2) in I; congruence|].
      eapply ext_trans; [exact X2|]. now apply ext_emit.
    - split; [neutral|]. eapply ext_trans; [exact X2|]. now apply ext_emit. }
  assert (Q : forall w, w_tls w = tls -> Inv b (emit (TSent (c_next s) op tls) (set_onwire (c_onwire s ++ [(c_next s, w)]) (set_next (c_next s + 1) s)))).
  { intros w T. apply inv_sent; auto. intros T'. destruct (H T') as (A & D & E & _). auto. }
  assert (QX : forall w, ext s (emit (TSent (c_next s) op tls) (set_onwire (c_onwire s ++ [(c_next s, w)]) (set_next (c_next s + 1) s)))).
  { intros w. split; [reflexivity|]. split; [reflexivity|]. exists [TSent (c_next s) op tls]. auto. }
  match goal with |- _ /\ _ /\ ?G => assert (GG : G) by congruence end.
  rewrite <- and_assoc. split; [|exact GG]. clear GG.
  destruct k; (apply F; [auto|auto|exact C]).
Qed.
Lemma act_ok b a s : Inv b s -> Inv b (act a s) /\ ext s (act a s) /\ (c_connected s <> Some true -> c_onwire (act a s) = c_onwire s /\ sents (c_trace (act a s)) = sents (c_trace s)).
Proof.
  intros V. destruct a as [k op controls|]; cbn [act].
  - destruct (do_send_ok b k op controls false s V) as (A & D & E); [discriminate|]. split; [exact A|]. split; [exact D|].
    intros N. destruct (E N) as (E1 & E2). split; [exact E2|]. now rewrite E1, sents_app, app_nil_r.
  - split; [now apply inv_due|]. split; [|auto]. split; [reflexivity|]. split; [reflexivity|]. exists []. now rewrite app_nil_r.
Qed.

Section User.
  Variable reps : list tev -> nat.
  Variable choose : list tev -> option useract.
  Variable verdict : list tev -> res bool.
  Notation user_runs := (user_runs reps choose).
  Notation handle := (handle reps choose verdict).
  Notation recv := (recv reps choose verdict).
  Notation step := (step reps choose verdict).

  Lemma user_acts_ok b n : forall s, Inv b s -> Inv b (user_acts choose n s) /\ ext s (user_acts choose n s) /\
    (c_connected s <> Some true -> c_onwire (user_acts choose n s) = c_onwire s /\ sents (c_trace (user_acts choose n s)) = sents (c_trace s)).
  Proof.
    induction n as [|n IH]; intros s V; cbn [user_acts]; [split; [exact V|]; split; [apply ext_refl|auto]|].
    destruct (choose (c_trace s)) as [a|]; [|auto]. destruct (act_ok b a s V) as (V1 & X1 & O1).
    destruct (IH _ V1) as (V2 & X2 & O2). split; [exact V2|]. split; [eapply ext_trans; eauto|].
    intros N. destruct (O1 N) as (O1a & O1b). destruct O2 as (O2a & O2b); [destruct X1 as (_ & -> & _); exact N|]. split; congruence.
  Qed.
  Lemma user_runs_ok b s : Inv b s -> Inv b (user_runs s) /\ ext s (user_runs s) /\
    (c_connected s <> Some true -> c_onwire (user_runs s) = c_onwire s /\ sents (c_trace (user_runs s)) = sents (c_trace s)).
  Proof. apply user_acts_ok. Qed.

  (** A request completes: its id becomes the busy one *)
  Lemma inv_complete s e i : Inv None s -> completes e = [i] -> sents [e] = [] -> e <> TLost -> legal (c_trace s) e -> Inv (Some i) (emit e s).
  Proof.
    intros [W ND P LT M BZ TL LO] C S0 NL L. cbn [sents flat_map] in S0.
    assert (ES : sents (c_trace s ++ [e]) = sents (c_trace s)) by (rewrite sents_app; unfold sents at 2; cbn [flat_map]; rewrite S0; now rewrite app_nil_r).
    assert (EC : completions (c_trace s ++ [e]) = completions (c_trace s) ++ [i]) by (rewrite completions_app; unfold completions at 2; cbn [flat_map]; rewrite C; reflexivity).
    constructor; cbn [c_trace c_onwire c_next c_connected emit]; rewrite ?ES, ?EC; auto.
    - now apply wf_snoc.
    - intros j. rewrite M, in_app_iff. cbn [In]. split.
      + intros (A & [D|D]); [|discriminate]. split; [exact A|]. destruct (Z.eq_dec i j) as [->|]; [now right|]. left. intuition.
      + intros (A & [D|D]); (split; [exact A|]); left; [intuition|]. injection D as <-.
        assert (O : outstanding (c_trace s) i); [|apply O].
        clear - C L. destruct e; cbn in C; try discriminate.
        * injection C as <-. apply L.
        * injection C as <-. apply L.
        * destruct r as [[]|]; try discriminate. injection C as <-. apply L.
    - intros j [= <-]. apply in_or_app. right. now left.
    - intros j w I T. destruct (TL j w I T) as (op & J). exists op. apply in_or_app. now left.
    - intros I. apply in_app_or in I as [I|[I|[]]]; [auto|congruence].
  Qed.
  Lemma dict_del_In i l j : In j (map fst (dict_del i l)) <-> In j (map fst l) /\ j <> i.
  Proof.
    unfold dict_del. rewrite !in_map_iff. split.
    - intros (x & <- & I). apply filter_In in I as (I & N). split; [eauto|]. lia.
    - intros ((x & <- & I) & N). exists x. split; [reflexivity|]. apply filter_In. split; [exact I|]. lia.
  Qed.
  Lemma dict_del_NoDup i l : NoDup (map fst l) -> NoDup (map fst (dict_del i l)).
  Proof.
    unfold dict_del. induction l as [|x l IH]; intros N; [constructor|]. inversion N as [|? ? N1 N2]; subst. cbn.
    destruct (negb (fst x =? i)); [|auto]. cbn. constructor; [|auto]. intros J. apply N1. now apply dict_del_In in J.
  Qed.
  Lemma inv_del i s : Inv (Some i) s -> Inv None (set_onwire (dict_del i (c_onwire s)) s).
  Proof.
    intros [W ND P LT M BZ TL LO]. constructor; cbn [c_trace c_onwire c_next c_connected set_onwire]; auto.
    - now apply dict_del_NoDup.
    - intros j. rewrite dict_del_In, M. split.
      + intros ((A & [D|D]) & N); [split; auto|congruence].
      + intros (A & [D|D]); [|discriminate]. split; [split; auto|]. intros ->. apply D. now apply BZ.
    - discriminate.
    - intros j w I T. apply filter_In in I as (I & _). eauto.
  Qed.

  Definition Good (s : cstate) : Prop := Inv None s /\ answered (c_trace s) /\ (c_connected s <> Some true -> c_onwire s = []).
  Lemma ext_answered s s' : ext s s' -> answered (c_trace s) -> answered (c_trace s').
  Proof. intros (_ & _ & r & -> & G & _) A. now apply answered_app. Qed.

  Lemma cbStartTLS_ok i v c t s op : Inv (Some i) s -> c_trace s = t ++ [TGot i v c; TFired i v] -> In (TSent i op true) t ->
    Inv (Some i) (cbStartTLS i v s) /\ ext s (cbStartTLS i v s).
  Proof.
    intros V E I.
    assert (T : tls_ok v -> Inv (Some i) (emit (TTls i) s) /\ ext s (emit (TTls i) s)).
    { intros O. split; [|now apply ext_emit]. neutral. cbn. apply in_split in I as (a1 & a2 & It).
      exists a1, a2, op, v, c. rewrite E, It. rewrite <- app_assoc. split; [reflexivity|].
      assert (L : legal a1 (TSent i op true)) by (apply (i_wf _ _ V a1 _ (a2 ++ [TGot i v c; TFired i v])); rewrite E, It, <- app_assoc; reflexivity).
      destruct L as (_ & _ & _ & L). destruct (L eq_refl). auto. }
    assert (N : Inv (Some i) s /\ ext s s) by (split; [exact V|apply ext_refl]).
    unfold cbStartTLS. destruct v; auto. destruct resultCode; auto. destruct z; auto. destruct responseName; auto.
    - apply T. repeat eexists. now left.
    - destruct (bytes_eqb b starttls_oid) eqn:Q; auto. apply bytes_eqb_eq in Q. subst. apply T. repeat eexists. now right.
  Qed.

  Lemma handle_ok o s : Good s -> Good (fst (handle o s)) \/ (exists e, snd (handle o s) = Err e /\ Good (emit (TError e) (fst (handle o s)))).
  Proof.
    intros (V & A & CW).
    unfold ClientModel.handle. destruct o; try (left; split; [|split]; assumption).
    destruct (is_response o); [|left; split; [|split]; assumption]. destruct id as [|i|]; try (left; split; [|split]; assumption).
    set (s1 := emit (TGot i o controls) s).
    assert (V1 : Inv None s1) by (neutral).
    assert (GA : forall r, flat_map got r = [] -> (outstanding (c_trace s) i -> served i o r) -> answered (c_trace s1 ++ r)).
    { intros r G H. unfold s1. cbn [c_trace emit]. rewrite <- app_assoc. now apply answered_got. }
    destruct (Z.eqb_spec i 0) as [->|N0].
    { left. cbn [fst]. split; [neutral|]. split; [|exact CW]. cbn [c_trace emit]. apply GA; [reflexivity|].
      intros (O & _). apply (i_lt _ _ V) in O. lia. }
    destruct (find (fun x => fst x =? i) (c_onwire s1)) as [(i' & w)|] eqn:Fi.
    2:{ left. cbn [fst]. split; [exact V1|]. split; [|exact CW]. rewrite <- (app_nil_r (c_trace s1)). apply GA; [reflexivity|]. intros O. exfalso.
        assert (J : In i (map fst (c_onwire s1))) by (apply (i_mem _ _ V); destruct O; auto).
        apply in_map_iff in J as (x & Ex & J). apply (find_none _ _ Fi) in J. cbv beta in J. lia. }
    apply find_some in Fi as (Iw & Ei). cbn [fst] in Ei. assert (i' = i) by lia. subst i'. clear Ei.
    assert (O1 : outstanding (c_trace s1) i).
    { assert (J : In i (map fst (c_onwire s1))) by (apply in_map_iff; exists (i, w); auto).
      apply (i_mem _ _ V1) in J as (J & [K|K]); [split; auto|discriminate]. }
    assert (CT : c_connected s = Some true).
    { destruct (c_connected s) as [[]|] eqn:C; [reflexivity|..]; exfalso; change (In (i, w) (c_onwire s)) in Iw; rewrite CW in Iw by discriminate; destruct Iw. }
    assert (NL : forall b s', Inv b s' -> c_connected s' = c_connected s -> ~ In TLost (c_trace s')).
    { intros b s' V' C' I'. apply (i_lost _ _ V') in I'. congruence. }
    destruct (w_handler w).
    - destruct (user_runs_ok None s1 V1) as (V2 & X2 & _). set (s2 := user_runs s1) in *.
      pose proof X2 as (B2 & C2 & r2 & E2 & G2 & K2).
      assert (L : forall r, legal (c_trace s2) (TCalled i o r)).
      { intros r. cbn. rewrite E2. split; [now apply outstanding_app|]. split; [rewrite <- E2; apply (NL None s2 V2); now rewrite C2|]. apply last_got_app; [|exact G2]. exists (c_trace s), [], controls. split; reflexivity. }
      assert (AN : forall r, answered (c_trace s2 ++ [TCalled i o r])).
      { intros r. rewrite E2, <- app_assoc. apply GA; [rewrite flat_map_app, G2; reflexivity|]. intros _.
        exists r2, (TCalled i o r), []. split; [reflexivity|]. split; [exact G2|]. right. left. eauto. }
      destruct (verdict (c_trace s2)) as [[]|e] eqn:Vd; left; cbn [fst].
      + split; [|split; [exact (AN (Ok true))|cbn; rewrite C2; cbn; congruence]]. apply inv_del. apply inv_complete; auto; discriminate.
      + split; [|split; [exact (AN (Ok false))|cbn; rewrite C2; cbn; congruence]]. neutral.
      + split; [|split; [exact (AN (Err e))|cbn; rewrite C2; cbn; congruence]]. neutral.
    - destruct (w_args w).
      { right. exists EAssert. split; [reflexivity|]. cbn [fst]. split; [neutral|]. split; [|exact CW]. cbn [c_trace emit]. apply GA; [reflexivity|].
        intros _. exists [], (TError EAssert), []. split; [reflexivity|]. split; [reflexivity|]. right. now right. }
      left. set (s2 := emit (TFired i o) s1).
      assert (V2 : Inv (Some i) s2).
      { apply inv_complete; auto; [discriminate|]. cbn. split; [exact O1|]. split; [exact (NL None s1 V1 eq_refl)|]. exists controls, (c_trace s). split; [reflexivity|].
        destruct O1 as (O1 & _). unfold s1 in O1. cbn [c_trace emit] in O1. rewrite sents_app in O1. apply in_app_or in O1 as [|[]]; auto. }
      assert (X3 : Inv (Some i) (if w_tls w then cbStartTLS i o s2 else s2) /\ ext s2 (if w_tls w then cbStartTLS i o s2 else s2)).
      { destruct (w_tls w) eqn:T; [|split; [exact V2|apply ext_refl]].
        destruct (i_tls _ _ V i w) as (op & It); [exact Iw|exact T|].
        apply cbStartTLS_ok with (c := controls) (t := c_trace s) (op := op); auto. unfold s2, s1. cbn. now rewrite <- app_assoc. }
      set (s3 := if w_tls w then cbStartTLS i o s2 else s2) in *. destruct X3 as (V3 & X3).
      destruct (user_runs_ok (Some i) s3 V3) as (V4 & X4 & _). cbn [fst]. split; [now apply inv_del|].
      destruct (ext_trans _ _ _ X3 X4) as (_ & C4 & r & E & G & _). split; [|cbn; rewrite C4; cbn; congruence]. cbn [c_trace set_onwire]. rewrite E. unfold s2. cbn [c_trace emit]. rewrite <- app_assoc.
      apply GA; [exact G|]. intros _. exists [], (TFired i o), r. split; [reflexivity|]. split; [reflexivity|]. now left.
  Qed.
  Lemma error_good e s : Good s -> Good (emit (TError e) s).
  Proof. intros (V & A & C). split; [neutral|]. split; [|exact C]. apply (ext_answered s); [now apply ext_emit|exact A]. Qed.
  Lemma recv_ok fuel : forall s, Good s -> Good (recv fuel s).
  Proof.
    induction fuel as [|f IH]; intros s G; cbn [ClientModel.recv]; [now apply error_good|].
    destruct (decode ctx_top (c_buffer s)) as [(o & n)|e]; [|destruct e; auto using error_good].
    assert (G1 : Good (set_buffer (zdrop n (c_buffer s)) s)).
    { destruct G as (V & A & C). split; [now apply inv_buffer|]. split; assumption. }
    destruct o as [o|]; [|exact G1]. destruct (client_check o) as [[]|e]; [|exact G1|now apply error_good].
    destruct (handle_ok o _ G1) as [H|(e & E & H)].
    - destruct (handle o _) as (s' & [u|e]); cbn [fst] in H; [now apply IH|now apply error_good].
    - destruct (handle o _) as (s' & [u|e']); cbn [fst snd] in *; [discriminate|]. now injection E as ->.
  Qed.

  Lemma dict_del_last i w l : ~ In i (map fst l) -> dict_del i (l ++ [(i, w)]) = l.
  Proof.
    intros N. unfold dict_del. rewrite filter_app. cbn. rewrite Z.eqb_refl. cbn. rewrite app_nil_r.
    induction l as [|x l IH]; [reflexivity|]. cbn. cbn in N. replace (fst x =? i) with false by (symmetry; apply Z.eqb_neq; tauto). cbn. rewrite IH; tauto.
  Qed.
  Lemma fail_all_ok n : forall s, Inv None s -> In TLost (c_trace s) -> answered (c_trace s) -> (length (c_onwire s) <= n)%nat ->
    Inv None (fail_all reps choose n s) /\ c_onwire (fail_all reps choose n s) = [] /\ answered (c_trace (fail_all reps choose n s)) /\
    c_connected (fail_all reps choose n s) = Some false.
  Proof.
    induction n as [|n IH]; intros s V L A Le; cbn [fail_all].
    - assert (c_onwire s = []) by (destruct (c_onwire s); [reflexivity|cbn in Le; lia]). split; [exact V|]. split; [assumption|]. split; [exact A|]. now apply (i_lost _ _ V).
    - destruct (rev (c_onwire s)) as [|(i & w) r] eqn:R.
      + assert (E : c_onwire s = []) by (rewrite <- (rev_involutive (c_onwire s)), R; reflexivity). split; [exact V|]. split; [assumption|]. split; [exact A|]. now apply (i_lost _ _ V).
      + assert (E : c_onwire s = rev r ++ [(i, w)]) by (rewrite <- (rev_involutive (c_onwire s)), R; reflexivity).
        assert (J : In i (map fst (c_onwire s))) by (rewrite E, map_app; apply in_or_app; right; now left).
        pose proof (proj1 (i_mem _ _ V i) J) as (O1 & [O2|O2]); [|discriminate].
        assert (V1 : Inv (Some i) (emit (TFailed i) s)).
        { apply inv_complete; auto; [discriminate|]. cbn. split; [split; auto|exact L]. }
        apply inv_del in V1.
        assert (N : ~ In i (map fst (rev r))).
        { pose proof (i_nd _ _ V) as ND. rewrite E, map_app in ND. cbn [map fst] in ND. apply NoDup_remove_2 in ND. now rewrite app_nil_r in ND. }
        replace (set_onwire (dict_del i (c_onwire (emit (TFailed i) s))) (emit (TFailed i) s)) with (emit (TFailed i) (set_onwire (rev r) s)) in V1.
        2:{ cbn [c_onwire emit]. now rewrite E, dict_del_last. }
        destruct (user_runs_ok None _ V1) as (V2 & X2 & O). pose proof (i_lost _ _ V L) as CF.
        destruct O as (OW & _); [cbn; rewrite CF; discriminate|].
        apply IH; auto.
        * destruct X2 as (_ & _ & x & -> & _). cbn. apply in_or_app. left. apply in_or_app. now left.
        * apply (ext_answered _ _ X2). cbn. now apply answered_app.
        * rewrite OW. cbn. rewrite E, app_length in Le. cbn in Le. lia.
  Qed.

  Lemma step_ok s e : Good s -> Good (step s e).
  Proof.
    intros G. pose proof G as (V & A & C). destruct e; cbn [ClientModel.step].
    - destruct (c_connected s) eqn:E; [exact G|]. split; [|split].
      + destruct V as [W ND P LT M BZ TL LO]. constructor; cbn; auto. intros I. apply LO in I. congruence.
      + exact A.
      + cbn. congruence.
    - unfold ClientModel.dataReceived. apply recv_ok. split; [now apply inv_buffer|]. split; assumption.
    - destruct (c_connected s) as [[]|] eqn:E; try exact G. unfold ClientModel.connectionLost. cbv zeta.
      set (s1 := emit TLost (set_connected false s)).
      assert (V1 : Inv None s1).
      { destruct V as [W ND P LT M BZ TL LO].
        assert (NL : ~ In TLost (c_trace s)) by (intros I; apply LO in I; congruence).
        constructor; unfold s1; cbn [c_trace c_onwire c_next c_connected emit set_connected]; rewrite ?sents_app, ?completions_app; cbn [sents flat_map completions completes app]; rewrite ?app_nil_r; auto.
        - now apply wf_snoc.
        - intros i w I T. destruct (TL i w I T) as (op & J). exists op. apply in_or_app. now left. }
      destruct (fail_all_ok (length (c_onwire s1)) s1 V1) as (V2 & O2 & A2 & C2); auto.
      { unfold s1. cbn. apply in_or_app. right. now left. }
      { unfold s1. cbn. now apply answered_app. }
      split; [exact V2|]. split; [exact A2|]. auto.
    - destruct (act_ok None a s V) as (V1 & X1 & O1). split; [exact V1|]. split; [exact (ext_answered _ _ X1 A)|].
      destruct X1 as (_ & EC & _). rewrite EC. intros N. destruct (O1 N) as (-> & _). auto.
    - destruct (c_due s); [exact G|]. set (s1 := set_due n s).
      assert (V1 : Inv None s1) by now apply inv_due.
      unfold startTLS_now.
      assert (U : forall e', Good (user_runs (emit (TTlsFailed e') s1))).
      { intros e'. assert (V2 : Inv None (emit (TTlsFailed e') s1)) by neutral.
        destruct (user_runs_ok None _ V2) as (V3 & X3 & O3). split; [exact V3|]. split.
        - apply (ext_answered _ _ X3). cbn. now apply answered_app.
        - destruct X3 as (_ & EC & _). rewrite EC. intros N. destruct (O3 N) as (-> & _). apply C. exact N. }
      destruct (c_connected s1) as [[]|] eqn:E; auto. destruct (c_onwire s1) eqn:Ow; auto.
      destruct (do_send_ok None KSend starttls_request None true s1 V1) as (V2 & X2 & _).
      { intros _. split; [exists (class_tag KExtReq); reflexivity|]. auto. }
      split; [exact V2|]. split; [exact (ext_answered _ _ X2 A)|]. destruct X2 as (_ & EC & _). rewrite EC. congruence.
    - split; [apply inv_next; [exact V|lia]|]. split; assumption.
  Qed.
  Lemma run_ok next es : 0 < next -> Good (run reps choose verdict next es).
  Proof.
    intros P. unfold run.
    assert (G : Good (c0 next)).
    { split; [|split; [|reflexivity]].
      - constructor; cbn; auto; try tauto; try discriminate.
        + intros a e b E. destruct a; discriminate.
        + constructor.
      - intros a i v c b E. cbn in E. destruct a; discriminate. }
    revert G. generalize (c0 next). induction es as [|e es IH]; intros s G; [exact G|]. cbn [fold_left]. apply IH. now apply step_ok.
  Qed.

  (** ** The properties *)
  Variable next : Z.
  Hypothesis next_pos : 0 < next.
  Notation trace es := (c_trace (run reps choose verdict next es)).

  Lemma sents_NoDup t : wf t -> NoDup (sents t).
  Proof.
    induction t as [|e t IH] using rev_ind; intros W; [constructor|]. rewrite sents_app.
    assert (W' : wf t). { intros a x b E. apply (W a x (b ++ [e])). now rewrite E, <- app_assoc. }
    destruct e; cbn; rewrite ?app_nil_r; auto. apply NoDup_app_snoc; auto.
    apply (W t (TSent id op tls) []). reflexivity.
  Qed.
  Lemma completes_once es a e b i : trace es = a ++ e :: b -> In i (completes e) -> In i (sents a) /\ ~ In i (completions a).
  Proof.
    intros E I. destruct (run_ok next es next_pos) as (V & _). pose proof (i_wf _ _ V a e b E) as L.
    destruct e; cbn in I; try now destruct I.
    - destruct I as [<-|[]]. apply L.
    - destruct I as [<-|[]]. apply L.
    - destruct r as [[]|]; try now destruct I. destruct I as [<-|[]]. apply L.
  Qed.
  Lemma delivered es a e b i v : trace es = a ++ e :: b -> (e = TFired i v \/ exists r, e = TCalled i v r) ->
    outstanding a i /\ last_got a i v.
  Proof.
    intros E H. destruct (run_ok next es next_pos) as (V & _). pose proof (i_wf _ _ V a e b E) as L.
    destruct H as [->|(r & ->)].
    - destruct L as (O & _ & c & a' & -> & I). split; [exact O|]. exists a', [], c. split; reflexivity.
    - destruct L as (O & _ & G). auto.
  Qed.
  Lemma after_loss es a b : trace es = a ++ TLost :: b ->
    (forall i, outstanding a i -> In (TFailed i) b) /\ (forall i, In i (sents (trace es)) -> In i (completions (trace es))) /\
    sents b = [] /\ (forall w, ~ In (TWritten w) b) /\ c_onwire (run reps choose verdict next es) = [] /\
    forall k op controls, trace (es ++ [EUser (USend k op controls)]) = trace es ++ [TRaised ELostConn].
  Proof.
    intros E. destruct (run_ok next es next_pos) as (V & A & C).
    assert (L : In TLost (trace es)) by (rewrite E; apply in_or_app; right; now left).
    pose proof (i_lost _ _ V L) as CF. assert (O : c_onwire (run reps choose verdict next es) = []) by (apply C; congruence).
    assert (AC : forall i, In i (sents (trace es)) -> In i (completions (trace es))).
    { intros i I. destruct (in_dec Z.eq_dec i (completions (trace es))) as [|N]; [assumption|]. exfalso.
      assert (X : In i (map fst (c_onwire (run reps choose verdict next es)))) by (apply (i_mem _ _ V); auto). rewrite O in X. destruct X. }
    assert (LB : forall x y z, b = x ++ y :: z -> legal (a ++ TLost :: x) y).
    { intros x y z ->. apply (i_wf _ _ V _ y z). rewrite E, <- app_assoc. reflexivity. }
    assert (NB : forall x, ~ ~ In TLost (a ++ TLost :: x)) by (intros x N; apply N; apply in_or_app; right; now left).
    split; [|split; [exact AC|split; [|split; [|split; [exact O|]]]]].
    - intros i (I & N). assert (J : In i (completions (trace es))) by (apply AC; rewrite E, sents_app; apply in_or_app; now left).
      rewrite E, completions_app in J. apply in_app_or in J as [J|J]; [tauto|]. cbn in J. apply in_flat_map in J as (e & J & K).
      pose proof J as J'. apply in_split in J as (x & z & Eb). pose proof (LB x e z Eb) as Lg.
      destruct e; cbn in K; try now destruct K.
      + destruct Lg as (_ & Lg & _). exfalso. now apply (NB x).
      + destruct K as [<-|[]]. exact J'.
      + destruct Lg as (_ & Lg & _). exfalso. now apply (NB x).
    - destruct (sents b) as [|i l] eqn:Sb; [reflexivity|]. exfalso. assert (I : In i (sents b)) by (rewrite Sb; now left).
      apply in_flat_map in I as (e & J & K). apply in_split in J as (x & z & Eb). pose proof (LB x e z Eb) as Lg.
      destruct e; cbn in K; try now destruct K. destruct Lg as (_ & _ & Lg & _). now apply (NB x).
    - intros w J. apply in_split in J as (x & z & Eb). now apply (NB x), (LB x _ z Eb).
    - intros k op controls. unfold run. rewrite fold_left_app. cbn [fold_left ClientModel.step act].
      change (fold_left step es (c0 next)) with (run reps choose verdict next es). unfold do_send. rewrite CF. reflexivity.
  Qed.
  Lemma tls_switch es a b i : trace es = a ++ TTls i :: b ->
    exists a1 a2 op v c, a = a1 ++ TSent i op true :: a2 ++ [TGot i v c; TFired i v] /\ tls_request op /\ idle_at a1 /\ tls_ok v.
  Proof. intros E. destruct (run_ok next es next_pos) as (V & _). exact (i_wf _ _ V a _ b E). Qed.
End User.

Definition seg (l : list tev) : Prop := forall a i op tls b, l = a ++ TSent i op tls :: b -> written i op b.
Lemma seg_nil : seg []. Proof. intros a i op tls b E. destruct a; discriminate. Qed.
Lemma written_app i op b c : written i op b -> written i op (b ++ c).
Proof.
  intros (X & r & [(co & w & E & ->)|(co & e & E & ->)]); (split; [exact X|]); exists (r ++ c); [left; exists co, w|right; exists co, e]; split; auto.
Qed.
Lemma seg_app l m : seg l -> seg m -> seg (l ++ m).
Proof.
  intros L M a i op tls b E. apply app_split in E. destruct E as (q & [(E1 & E2)|(E1 & E2)]).
  - destruct q as [|x q].
    + cbn in E2. apply (M [] i op tls b). now rewrite <- E2.
    + cbn in E2. injection E2 as <- ->. apply written_app. exact (L a i op tls q E1).
  - subst a. exact (M q i op tls b E2).
Qed.
Lemma seg_one e : (forall i op tls, e <> TSent i op tls) -> seg [e].
Proof. intros N a i op tls b E. destruct a as [|x a]; [injection E as -> <-; destruct (N i op tls eq_refl)|destruct a; discriminate]. Qed.
Definition sext (s s' : cstate) : Prop := exists r, c_trace s' = c_trace s ++ r /\ seg r.
Lemma sext_refl s s' : c_trace s' = c_trace s -> sext s s'. Proof. intros E. exists []. rewrite E, app_nil_r. auto using seg_nil. Qed.
Lemma sext_trans a b c : sext a b -> sext b c -> sext a c.
Proof. intros (r & E & R) (q & F & Q). exists (r ++ q). rewrite F, E, app_assoc. auto using seg_app. Qed.
Lemma sext_emit e s : (forall i op tls, e <> TSent i op tls) -> sext s (emit e s).
Proof. intros N. exists [e]. auto using seg_one. Qed.
Ltac sx := first [exact (sext_refl _ _ eq_refl) | now apply sext_emit].

Lemma sext_do_send k op controls tls s : sext s (do_send k op controls tls s).
Proof.
  unfold do_send, raised. destruct (c_connected s) as [[]|]; try sx. cbv zeta.
  destruct (dict_has _ _); [exact (sext_trans _ (set_next (c_next s + 1) s) _ (sext_refl _ _ eq_refl) (sext_emit (TRaised EAssert) _ ltac:(discriminate)))|].
  destruct (negb _) eqn:NA; [exact (sext_trans _ (set_next (c_next s + 1) s) _ (sext_refl _ _ eq_refl) (sext_emit (TRaised EAssert) _ ltac:(discriminate)))|].
  destruct k; cbv iota;
    match goal with |- context[toWire ?m] => destruct (toWire m) as [w|e] eqn:E end;
    try (eexists; split; [cbn; rewrite <- ?app_assoc; reflexivity|]; cbn [app];
      first [apply seg_one; discriminate|
        intros a i op' tls' b X; destruct a as [|x a];
          [injection X as <- <- <- <-; split; [split; intros; intros ->; discriminate NA|]; eexists; first [left; eexists; eexists; split; [exact E|reflexivity] | right; eexists; eexists; split; [exact E|reflexivity]]
          |destruct a as [|y a]; [discriminate|destruct a; discriminate]]]).
Qed.
Section Written.
  Variable reps : list tev -> nat.
  Variable choose : list tev -> option useract.
  Variable verdict : list tev -> res bool.
  Lemma sext_act a s : sext s (act a s).
  Proof. destruct a; [apply sext_do_send|sx]. Qed.
  Lemma sext_user_acts n : forall s, sext s (user_acts choose n s).
  Proof.
    induction n as [|n IH]; intros s; cbn [user_acts]; [sx|]. eapply sext_trans; [|apply IH].
    destruct (choose _); [apply sext_act|sx].
  Qed.
  Lemma sext_user_runs s : sext s (user_runs reps choose s). Proof. apply sext_user_acts. Qed.
  Lemma sext_cb i v s : sext s (cbStartTLS i v s).
  Proof.
    unfold cbStartTLS. destruct v; try sx. repeat match goal with |- sext _ (match ?x with _ => _ end) => destruct x; try sx end.
  Qed.
  Lemma sext_handle o s : sext s (fst (handle reps choose verdict o s)).
  Proof.
    unfold handle. destruct o; try sx. destruct (is_response _); [|sx]. match goal with |- context[match ?x with VNone => _ | _ => _ end] => destruct x as [|i|] end; try sx. cbv zeta.
    match goal with |- context[TGot i ?v ?c] => set (e := TGot i v c) end.
    assert (Y : sext s (emit e s)) by (apply sext_emit; discriminate).
    destruct (i =? 0); [eapply sext_trans; [exact Y|]; cbn [fst]; sx|].
    destruct (find _ _) as [(j & w)|]; [|exact Y]. destruct (w_handler w).
    - eapply sext_trans; [exact Y|]. eapply sext_trans; [apply sext_user_runs|].
      match goal with |- context[TCalled i ?v ?r] => eapply sext_trans; [apply (sext_emit (TCalled i v r)); discriminate|]; destruct r as [[]|] end; exact (sext_refl _ _ eq_refl).
    - destruct (w_args w); [exact Y|]. eapply sext_trans; [exact Y|].
      match goal with |- context[TFired i ?v] => eapply sext_trans; [apply (sext_emit (TFired i v)); discriminate|] end. cbn [fst].
      eapply sext_trans; [|eapply sext_trans; [apply sext_user_runs|exact (sext_refl _ _ eq_refl)]].
      destruct (w_tls w); [apply sext_cb|sx].
  Qed.
  Lemma sext_recv fuel : forall s, sext s (recv reps choose verdict fuel s).
  Proof.
    induction fuel as [|f IH]; intros s; cbn [recv]; [sx|]. destruct (decode _ _) as [(o & n)|e].
    - set (s1 := set_buffer _ s). assert (Y : sext s s1) by exact (sext_refl _ _ eq_refl). clearbody s1. cbv zeta. eapply sext_trans; [exact Y|].
      destruct o as [o|]; [|sx]. destruct (client_check o) as [[]|]; try sx.
      pose proof (sext_handle o s1) as H. destruct (handle _ _ _ o s1) as (s2 & [|]); cbn in H.
      + eapply sext_trans; [exact H|apply IH].
      + eapply sext_trans; [exact H|sx].
    - destruct e; sx.
  Qed.
  Lemma sext_fail_all n : forall s, sext s (fail_all reps choose n s).
  Proof.
    induction n as [|n IH]; intros s; cbn [fail_all]; [sx|]. destruct (rev _) as [|(i & w) r]; [sx|].
    eapply sext_trans; [|apply IH]. eapply sext_trans; [|apply sext_user_runs].
    eapply sext_trans; [exact (sext_refl _ (set_onwire (rev r) s) eq_refl)|sx].
  Qed.
  Lemma sext_step s e : sext s (step reps choose verdict s e).
  Proof.
    destruct e; cbn [step].
    - destruct (c_connected s); sx.
    - unfold dataReceived. eapply sext_trans; [|apply sext_recv]. sx.
    - destruct (c_connected s) as [[]|]; try sx. unfold connectionLost. eapply sext_trans; [|apply sext_fail_all].
      eapply sext_trans; [exact (sext_refl _ (set_connected false s) eq_refl)|sx].
    - apply sext_act.
    - destruct (c_due s) as [|n]; [sx|]. eapply sext_trans; [exact (sext_refl _ (set_due n s) eq_refl)|]. unfold startTLS_now.
      destruct (c_connected _) as [[]|]; [destruct (c_onwire _); [apply sext_do_send|]| |];
        (eapply sext_trans; [|apply sext_user_runs]; sx).
    - sx.
  Qed.
  Lemma run_written next es : seg (c_trace (run reps choose verdict next es)).
  Proof.
    unfold run. assert (G : forall s, seg (c_trace s) -> seg (c_trace (fold_left (step reps choose verdict) es s))).
    { induction es as [|e l IH]; intros s H; cbn [fold_left]; [exact H|]. apply IH. destruct (sext_step s e) as (r & -> & R). now apply seg_app. }
    apply G, seg_nil.
  Qed.
End Written.
