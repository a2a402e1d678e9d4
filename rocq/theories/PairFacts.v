(** What the two ends know of each other. *)
From Verif Require Import Base BaseFacts BerModel BerSpec BerProofs LdapModel LdapSpec LdapProofs StreamModel StreamSpec StreamProofs DnModel EntryModel
  ServerModel ServerSpec ClientModel ClientSpec ClientProofs ClientStream LateModel LateSpec LateProofs PairModel PairSpec PairClient PairServer PairProofs.

Lemma reads_fun c w o o' : reads c w o -> reads c w o' -> o = o'.
Proof. intros A B. apply (reads_decode _ _ _ []) in A, B. rewrite A in B. now injection B. Qed.
Lemma F2_length {A B} (P : A -> B -> Prop) l m : Forall2 P l m -> length l = length m.
Proof. induction 1; cbn; congruence. Qed.
Lemma concat_done (w1 w2 : list bytes) (C b : bytes) n : C = concat (w1 ++ w2) -> n = length C -> firstn n C = concat w1 ++ b -> concat w2 = b.
Proof. intros -> -> E. rewrite firstn_all, concat_app in E. now apply app_inv_head in E. Qed.
Lemma concat_nil (w : list bytes) : concat w = [] -> Forall (fun x => x <> []) w -> w = [].
Proof. destruct w as [|x w]; [reflexivity|]. intros E F. inversion F; subst. cbn in E. apply app_eq_nil in E as (-> & _). congruence. Qed.
Lemma mid_unique (ms : list meant) i q q' cs cs' : NoDup (map mid ms) -> In (i, q, cs) ms -> In (i, q', cs') ms -> (i, q, cs) = (i, q', cs').
Proof.
  induction ms as [|m ms IH]; intros N A B; [destruct A|]. cbn in N. inversion N as [|? ? N1 N2]; subst.
  assert (X : forall q cs, In (i, q, cs) ms -> In i (map mid ms)) by (intros y z I; apply in_map_iff; now exists (i, y, z)).
  destruct A as [A|A], B as [B|B].
  - congruence.
  - subst m. destruct N1. eapply X, B.
  - subst m. destruct N1. eapply X, A.
  - auto.
Qed.

Section Facts.
  Variable reps : list ClientModel.tev -> nat.
  Variable choose : list ClientModel.tev -> option useract.
  Variable verdict : list ClientModel.tev -> res bool.
  Variable lower : str -> str.
  Variable io : Z -> Z -> res Z.
  Variable oc_first : bool.
  Variable text : exn -> bytes.
  Variable root : ent.
  Variable next : Z.
  Hypothesis law : lawful_user choose.
  Hypothesis IO : forall a b c, io a b <> Err (ELdap c).
  Hypothesis pos : 0 < next.
  Local Notation prun := (PairModel.prun reps choose verdict lower io oc_first text root next).
  Local Notation PI := (PairProofs.PI reps choose verdict lower io oc_first text root next).
  Local Notation ctr p := (c_trace (p_client p)).
  Local Notation str_ p := (l_trace (p_server p)).

  (** Requests come as they were sent *)
  Lemma requests es : Forall lawful_event es -> let p := prun es in exists ms,
    Forall2 sends ms (client_writes (p_client p)) /\ NoDup (map mid ms) /\
    (forall i op tls, In (TSent i op tls) (ctr p) -> exists q, op = request_obj q /\
      ((exists cs, In (i, q, cs) ms) \/ exists cs e, toWire (message_obj i op cs) = Err e)) /\
    exists j, map (read_message read_request) (taken (str_ p)) = map as_read (firstn j ms).
  Proof.
    intros L p. destruct (pair_ok reps choose verdict lower io oc_first text root next law IO pos es L) as (ces & les & ms & P). fold p in P.
    exists ms. pose proof (pi_ci _ _ _ _ _ _ _ _ _ _ _ _ _ P) as C. split; [apply (ci_enc _ _ _ C)|]. split; [apply (ci_nd _ _ _ C)|]. split.
    - intros i op tls I. destruct (ci_sent _ _ _ C _ _ _ I) as (_ & q & E & [H|(_ & H)]); exists q; auto.
    - destruct (pi_up _ _ _ _ _ _ _ _ _ _ _ _ _ P) as (m1 & m2 & w1 & w2 & -> & _ & _ & _ & _ & R). exists (length m1). now rewrite firstn_app, Nat.sub_diag, firstn_all, app_nil_r.
  Qed.

  (** What the server writes, as responses *)
  Lemma told_writes p ces les ms : PI p ces les ms -> exists rs, told (str_ p) = map (fun x => (VInt (fst x), response_obj (snd x))) rs /\
    Forall2 (fun x w => toWire (message_obj (fst x) (response_obj (snd x)) None) = Ok w) rs (server_writes (p_server p)).
  Proof.
    intros P. unfold told, server_writes.
    assert (F : forall e, In e (str_ p) -> match e with TWrite k id op b => exists i r, id = VInt i /\ op = response_obj r /\ toWire (message_obj i (response_obj r) None) = Ok b | _ => True end).
    { intros e I. destruct e; try exact Logic.I. destruct (write_meant reps choose verdict lower io oc_first text root next IO p ces les ms _ _ _ _ P I) as (m & r & _ & -> & -> & W). eauto. }
    induction (str_ p) as [|e t IH]; [exists []; split; [reflexivity|constructor]|].
    destruct IH as (rs & E & W). { intros x I. apply F. now right. }
    specialize (F e (or_introl eq_refl)). cbn [flat_map]. destruct e; cbn [app]; try (exists rs; split; [exact E|exact W]).
    destruct F as (i & r & -> & -> & F). exists ((i, r) :: rs). cbn [map fst snd]. split; [now rewrite E|constructor; assumption].
  Qed.
  Lemma heard_gots t : heard t = map (fun '(i, v, c) => OMessage 0x10 (VInt i) v c) (gots t).
  Proof. induction t as [|e t IH]; [reflexivity|]. unfold heard, gots in *. cbn [flat_map]. destruct e; cbn [app map]; rewrite ?IH; reflexivity. Qed.
  Lemma heard_as s i r w g : toWire (message_obj i (response_obj r) None) = Ok w -> hears s w g ->
    (fun '(i, v, c) => read_message read_response (OMessage 0x10 (VInt i) v c)) g = Some (i, seen_response r, None).
  Proof.
    intros W (o & R & _ & (tag & j & v & c & -> & _ & ->) & _). destruct (response_message_seen _ _ _ _ W) as (o' & R' & Q & _).
    rewrite (reads_fun _ _ _ _ R' R) in Q. exact Q.
  Qed.
  Lemma responses_in p ces les ms : PI p ces les ms -> exists rs, told (str_ p) = map (fun x => (VInt (fst x), response_obj (snd x))) rs /\
    exists j, map (read_message read_response) (heard (ctr p)) = map (fun x => Some (fst x, seen_response (snd x), None)) (firstn j rs) /\
    (p_down p = length (concat (server_writes (p_server p))) -> ~ failed (ctr p) -> firstn j rs = rs).
  Proof.
    intros P. destruct (told_writes _ _ _ _ P) as (rs & E & W). exists rs. split; [exact E|].
    destruct (pi_down _ _ _ _ _ _ _ _ _ _ _ _ _ P) as (w1 & w2 & E1 & E2 & E3 & E4 & E5).
    exists (length w1). split.
    - rewrite heard_gots, map_map. clear E E2 E3 E5. rewrite E1 in W. clear E1. revert rs W. induction E4 as [|w g w1 gs H E4 IH]; intros rs W; [reflexivity|].
      inversion W as [|x y rs' ws' W1 W2]; subst. cbn [length firstn map]. f_equal; [|now apply IH].
      destruct g as [[gi gv] gc]. exact (heard_as _ _ _ _ _ W1 H).
    - intros D NF. destruct E5 as [E5|E5]; [contradiction|].
      assert (N : Forall (fun x => x <> []) (server_writes (p_server p))).
      { destruct (writes_heard reps choose verdict lower io oc_first text root next IO _ _ _ _ P) as (gs & G). clear - G. induction G; constructor; auto. eapply hears_nonempty; eauto. }
      rewrite E1 in E3, D. pose proof (concat_done w1 w2 _ _ _ eq_refl D E3) as X.
      assert (w2 = []). { destruct w2 as [|w w2]; [reflexivity|]. cbn in E5, X. rewrite <- X, app_length in E5. lia. }
      subst w2. rewrite app_nil_r in E1. apply F2_length in W. rewrite <- E1, <- W. apply firstn_all.
  Qed.
  Lemma responses es : Forall lawful_event es -> let p := prun es in exists rs, told (str_ p) = map (fun x => (VInt (fst x), response_obj (snd x))) rs /\
    exists j, map (read_message read_response) (heard (ctr p)) = map (fun x => Some (fst x, seen_response (snd x), None)) (firstn j rs).
  Proof.
    intros L p. destruct (pair_ok reps choose verdict lower io oc_first text root next law IO pos es L) as (ces & les & ms & P). fold p in P.
    destruct (responses_in _ _ _ _ P) as (rs & E & j & H & _). eauto.
  Qed.

  Lemma map_in_l {A B C} (f : A -> C) (g : B -> C) l m x : map f l = map g m -> In x l -> exists y, In y m /\ f x = g y.
  Proof. intros E I. assert (J : In (f x) (map g m)) by (rewrite <- E; now apply in_map). apply in_map_iff in J as (y & H & J). eauto. Qed.
  Lemma firstn_In {A} n (l : list A) x : In x (firstn n l) -> In x l.
  Proof. intros I. rewrite <- (firstn_skipn n l). apply in_or_app. now left. Qed.
  (** What the client hears is what the server wrote *)
  Lemma heard_told p ces les ms i v c : PI p ces les ms -> In (ClientModel.TGot i v c) (ctr p) ->
    exists k r b, In (TWrite k (VInt i) (response_obj r) b) (str_ p) /\ read_response v = Some (seen_response r).
  Proof.
    intros P I. destruct (responses_in _ _ _ _ P) as (rs & E & j & H & _).
    assert (J : In (OMessage 0x10 (VInt i) v c) (heard (ctr p))) by (apply in_flat_map; eexists; split; [exact I|now left]).
    destruct (map_in_l _ _ _ _ _ H J) as ([i' r] & Y & Q). cbn [fst snd] in Q. apply firstn_In in Y.
    apply read_message_inv in Q as (tag & op & cs & Q & Q'). injection Q as _ <- <- _.
    assert (T : In (VInt i, response_obj r) (told (str_ p))) by (rewrite E; apply in_map_iff; exists (i, r); auto).
    apply in_flat_map in T as (e & T & X). destruct e; try now destruct X. destruct X as [X|[]]. injection X as -> ->. eauto.
  Qed.
  Lemma sent_in t i : In i (sents t) -> exists op tls, In (TSent i op tls) t.
  Proof. intros I. apply in_flat_map in I as (e & J & X). destruct e; try now destruct X. destruct X as [->|[]]. eauto. Qed.

  (** Agreement: what completes or is called back for a request is a response that the server wrote for it *)
  Lemma agreement es i v e : Forall lawful_event es -> let p := prun es in In e (ctr p) -> (e = ClientModel.TFired i v \/ exists x, e = TCalled i v x) ->
    exists q tls k req cs names r b a c, In (TSent i (request_obj q) tls) (ctr p) /\ str_ p = a ++ TWrite k (VInt i) (response_obj r) b :: c /\
      came a k (VInt i) req cs names /\ read_request req = Some (seen_request q) /\ read_response v = Some (seen_response r) /\
      ((is_entry (response_obj r) /\ entry_for lower oc_first root req names (response_obj r)) \/
       (~ is_entry (response_obj r) /\ answers req (response_obj r) /\ results k a = [] /\ truth a k req (response_obj r))).
  Proof.
    intros L p I H. destruct (pair_ok reps choose verdict lower io oc_first text root next law IO pos es L) as (ces & les & ms & P). fold p in P.
    apply in_split in I as (a0 & b0 & I). pose proof (pi_c _ _ _ _ _ _ _ _ _ _ _ _ _ P) as EC.
    destruct (delivered reps choose verdict next pos ces a0 e b0 i v) as ((O & _) & a1 & b1 & c1 & G & _); [now rewrite <- EC|exact H|].
    assert (TG : In (ClientModel.TGot i v c1) (ctr p)) by (rewrite I, G; apply in_or_app; left; apply in_or_app; right; now left).
    destruct (heard_told _ _ _ _ _ _ _ P TG) as (k & r & b & W & RR).
    apply sent_in in O as (op & tls & S0). assert (S1 : In (TSent i op tls) (ctr p)) by (rewrite I; apply in_or_app; now left).
    pose proof (pi_ci _ _ _ _ _ _ _ _ _ _ _ _ _ P) as C. destruct (ci_sent _ _ _ C _ _ _ S1) as (_ & q & -> & Q).
    pose proof (run_inv lower io oc_first text root IO False les (fun F => match F with end)) as V. rewrite <- (pi_s _ _ _ _ _ _ _ _ _ _ _ _ _ P) in V.
    apply in_split in W as (a & c & W). pose proof (i_wr _ _ _ _ _ _ _ V a _ c W) as (_ & _ & req & cs & names & CM & X).
    assert (CM' : came (str_ p) k (VInt i) req cs names) by (unfold came in *; rewrite W; apply in_or_app; now left).
    destruct (came_meant reps choose verdict lower io oc_first text root next p ces les ms _ _ _ _ _ P CM') as ([[i' q'] cs'] & J & EI & Y). injection EI as EI. cbn [mid fst] in EI. subst i'.
    assert (EQ : q' = q).
    { destruct Q as [(cs2 & J2)|(N & _)]; [|destruct N; apply in_map_iff; exists (i, q', cs'); auto].
      pose proof (mid_unique ms i q q' cs2 cs' (ci_nd _ _ _ C) J2 J) as M. now injection M. }
    subst q'. apply read_message_inv in Y as (tag & op & cs2 & Y & RQ). injection Y as _ <- _.
    exists q, tls, k, req, cs, names, r, b, a, c. split; [exact S1|]. split; [exact W|]. split; [exact CM|]. split; [exact RQ|]. split; [exact RR|].
    destruct X as [X|(X1 & X2 & X3)]; [now left|right]. do 3 (split; [assumption|]).
    eapply (i_tr _ _ _ _ _ _ _ V a _ c W); [|exact CM]. cbn [result_in]. rewrite Nat.eqb_refl. destruct r; try reflexivity. destruct X1. exact Logic.I.
  Qed.

  (** Completion *)
  Lemma read_expects req q : read_request req = Some (seen_request q) -> expects (request_obj q) -> expects_answer req.
  Proof.
    intros R (E1 & E2). destruct req; cbn in R; try discriminate; try exact Logic.I.
    - destruct k; try discriminate. destruct q as [? ? [?|? [[|]|]]| | | | | | | | |]; cbn in R; try discriminate. injection R as ->. now destruct (E2 (class_tag KAbandon) id).
    - destruct k; try discriminate. exact Logic.I.
    - destruct k; try discriminate. destruct q as [? ? [?|? [[|]|]]| | | | | | | | |]; cbn in R; try discriminate. now destruct (E1 (class_tag KUnbind)).
  Qed.
  Lemma completes_all es : Forall lawful_event es -> let p := prun es in
    p_up p = length (concat (client_writes (p_client p))) -> p_buffer p = [] -> p_down p = length (concat (server_writes (p_server p))) ->
    (forall n k c, In (TCall n k c) (str_ p) -> exists r, In (LateModel.TFired n r) (str_ p)) ->
    (forall x, ~ In (TError x) (ctr p)) ->
    (forall t i v, last_got t i v -> ~ is_entry v -> verdict t = Ok true) ->
    forall i op tls, In (TSent i op tls) (ctr p) ->
    In i (completions (ctr p)) \/ (exists cs x, toWire (message_obj i op cs) = Err x) \/
    exists k req cs names op' x, came (str_ p) k (VInt i) req cs names /\ In (TUnsent k op' x) (str_ p).
  Proof.
    intros L p UP BU DN CALLS NE VER i op tls S1. destruct (pair_ok reps choose verdict lower io oc_first text root next law IO pos es L) as (ces & les & ms & P). fold p in P.
    pose proof (pi_ci _ _ _ _ _ _ _ _ _ _ _ _ _ P) as C. pose proof (pi_c _ _ _ _ _ _ _ _ _ _ _ _ _ P) as EC.
    destruct (ci_sent _ _ _ C _ _ _ S1) as (_ & q & -> & [(cs & M)|(_ & M)]); [|right; left; exact M].
    (** it came *)
    destruct (pi_up _ _ _ _ _ _ _ _ _ _ _ _ _ P) as (m1 & m2 & w1 & w2 & E1 & E2 & E3 & E4 & E5 & E6).
    pose proof (ci_enc _ _ _ C) as F. change (writes_of (c_trace (p_client p))) with (client_writes (p_client p)) in F. rewrite E1, E2 in F.
    apply F2_split in F as (_ & F); [|exact E3]. rewrite E2 in E5, UP. rewrite BU in E5. pose proof (concat_done w1 w2 _ _ _ eq_refl UP E5) as W2.
    assert (m2 = []).
    { destruct F as [|m w m2 w2 S0 F]; [reflexivity|]. cbn in W2. apply app_eq_nil in W2 as (-> & _). destruct (request_message_seen _ _ _ _ S0) as (o & Rd & _).
      now apply element_reads, element_nonempty in Rd. }
    subst m2. rewrite app_nil_r in E1. subst m1. destruct (map_in_l _ _ _ _ _ (eq_sym E6) M) as (o & IT & RM). symmetry in RM.
    apply read_message_inv in RM as (tag & req & rcs & -> & RQ). cbn [mid fst snd] in IT, RQ.
    assert (CM : exists k cs' names, came (str_ p) k (VInt i) req cs' names).
    { apply in_flat_map in IT as (e & J & X). destruct e; try now destruct X. destruct X as [X|[]]. injection X as _ -> -> _. exists k, cs0, names. exact J. }
    destruct CM as (k & cs' & names & CM).
    assert (EX : expects_answer req).
    { apply (read_expects _ q RQ). apply in_split in S1 as (a & b & S1). rewrite EC in S1. now destruct (run_written reps choose verdict next ces _ _ _ _ _ S1) as (EX & _). }
    pose proof (run_inv lower io oc_first text root IO False les (fun F => match F with end)) as V. pose proof (pi_s _ _ _ _ _ _ _ _ _ _ _ _ _ P) as ES. rewrite <- ES in V.
    assert (RES : results k (str_ p) <> []).
    { intros R. rewrite ES in R, CM. destruct (unanswered lower io oc_first text root les k (VInt i) req cs' names IO CM EX R) as (n & c & I & N & _).
      rewrite <- ES in I, N. destruct (CALLS _ _ _ I) as (r & X). now destruct (N r). }
    (** its result *)
    destruct (results k (str_ p)) as [|op' rest] eqn:RE; [congruence|]. assert (J : In op' (results k (str_ p))) by (rewrite RE; now left).
    apply in_flat_map in J as (e & J & X).
    assert (Y : (exists id b, e = TWrite k id op' b /\ ~ is_entry op') \/ exists x, e = TUnsent k op' x).
    { destruct e; try now destruct X.
      - left. cbn [result_in] in X. assert (~ is_entry op) by (destruct op; try (intros []); destruct X). destruct op; try (destruct (Nat.eqb_spec k k0) as [<-|]; [|now destruct X]; destruct X as [<-|[]]; eauto).
        destruct X.
      - right. cbn [result_in] in X. destruct (Nat.eqb_spec k k0) as [<-|]; [|now destruct X]. destruct X as [<-|[]]; eauto. }
    destruct Y as [(id & b & -> & NEN)|(x & ->)]; [|right; right; exists k, req, cs', names, op', x; auto].
    left.
    (** heard *)
    pose proof J as J0. apply in_split in J as (a & c & JS). pose proof (i_wr _ _ _ _ _ _ _ V a _ c JS) as (_ & _ & req2 & cs2 & names2 & CM2 & _).
    assert (ID : id = VInt i).
    { pose proof (i_cd _ _ _ _ _ _ _ V) as CD. assert (CM3 : came (str_ p) k id req2 cs2 names2) by (unfold came in *; rewrite JS; apply in_or_app; now left).
      unfold came in CM, CM3. apply in_split in CM as (u1 & u2 & U). rewrite U in CM3. apply in_app_or in CM3 as [CM3|[CM3|CM3]].
      - pose proof (CD _ _ _ U) as X1. cbn in X1. now destruct (X1 id req2 cs2 names2).
      - now injection CM3.
      - apply in_split in CM3 as (u3 & u4 & U'). rewrite U' in U. assert (U2 : str_ p = (u1 ++ LateModel.TGot k (VInt i) req cs' names :: u3) ++ LateModel.TGot k id req2 cs2 names2 :: u4) by (rewrite <- app_assoc; exact U).
        pose proof (CD _ _ _ U2) as X1. cbn in X1. destruct (X1 (VInt i) req cs' names). unfold came. apply in_or_app. right. now left. }
    subst id. destruct (responses_in _ _ _ _ P) as (rs & E & j & H & FULL). rewrite FULL in H; [|exact DN|intros (x & NX); now apply (NE x)].
    assert (T : In (VInt i, op') (told (str_ p))) by (apply in_flat_map; eexists; split; [exact J0|now left]).
    rewrite E in T. apply in_map_iff in T as ([i' r] & T1 & T2). cbn [fst snd] in T1. injection T1 as -> <-.
    destruct (map_in_l _ _ _ _ _ (eq_sym H) T2) as (o & IH & RM2). symmetry in RM2. cbn [fst snd] in RM2. apply read_message_inv in RM2 as (tag2 & v & vc & -> & RV).
    apply in_flat_map in IH as (e & IG & X2). destruct e; try now destruct X2. destruct X2 as [X2|[]]. injection X2 as <- -> -> ->.
    assert (NV : ~ is_entry v).
    { destruct v; try (now intros []). intros _. cbn in RV. destruct (rd_bytes objectName) as [x|]; [|discriminate]. destruct (all_some _) as [y|]; [|discriminate].
      cbn in RV. destruct r as [? [[|]|]| | | | | | | | |]; cbn in RV; try discriminate. now apply NEN. }
    apply in_split in IG as (g1 & g2 & IG).
    assert (OS : In i (sents g1)).
    { pose proof S1 as S2. apply in_split in S1 as (s1 & s2 & S1).
      assert (I : In (TSent i (request_obj q) tls) g1).
      { rewrite IG in S2. apply in_app_or in S2 as [S2|[S2|S2]]; [exact S2|discriminate|]. apply in_split in S2 as (u & u' & S2).
        destruct (ci_order _ _ _ C (g1 ++ ClientModel.TGot i v vc :: u) i (request_obj q) tls u' v vc); [rewrite IG, S2, <- app_assoc; reflexivity|]. apply in_or_app. right. now left. }
      apply in_flat_map. eexists. split; [exact I|now left]. }
    unfold completions. rewrite IG, flat_map_app. fold (completions g1). apply in_or_app.
    destruct (in_dec Z.eq_dec i (completions g1)) as [D|D]; [now left|right].
    destruct (run_ok reps choose verdict next ces pos) as (_ & ALL & _). rewrite EC in IG.
    destruct (ALL _ _ _ _ _ IG (conj OS D)) as (u & e & u' & -> & NG & [->|[(r' & ->)| ->]]).
    - cbn [flat_map completes app]. rewrite flat_map_app. apply in_or_app. right. now left.
    - assert (E7 : c_trace (p_client p) = (g1 ++ ClientModel.TGot i v vc :: u) ++ TCalled i v r' :: u') by (rewrite EC, IG, <- app_assoc; reflexivity).
      rewrite (ci_called _ _ _ C _ _ _ _ _ E7). rewrite (VER _ i v); [|now exists g1, u, vc|exact NV].
      cbn [flat_map completes app]. rewrite flat_map_app. apply in_or_app. right. now left.
    - destruct (NE EAssert). rewrite EC, IG. apply in_or_app. right. right. apply in_or_app. right. now left.
  Qed.
End Facts.

(** A success of a delete request *)
Lemma came_one io t : each (called io) t -> forall k id req cs names id' req' cs' names', came t k id req cs names -> came t k id' req' cs' names' ->
  LateModel.TGot k id req cs names = LateModel.TGot k id' req' cs' names'.
Proof.
  intros CD k id req cs names id' req' cs' names' A B. unfold came in A, B. apply in_split in A as (u1 & u2 & U). rewrite U in B. apply in_app_or in B as [B|[B|B]].
  - pose proof (CD _ _ _ U) as X. cbn in X. now destruct (X _ _ _ _ B).
  - exact B.
  - apply in_split in B as (u3 & u4 & U'). rewrite U' in U. assert (U2 : t = (u1 ++ LateModel.TGot k id req cs names :: u3) ++ LateModel.TGot k id' req' cs' names' :: u4) by (rewrite <- app_assoc; exact U).
    pose proof (CD _ _ _ U2) as X. cbn in X. destruct (X id req cs names). unfold came. apply in_or_app. right. now left.
Qed.
Lemma code_seen v r : read_response v = Some (seen_response r) -> code v = code (response_obj r).
Proof.
  destruct v as [| | | | | | | | | | | |tag us|k tag c d m sc|tag c d m n rv| |tag dn ats| | | | |]; try discriminate; cbn [read_response].
  - intros H. destruct (all_some _); [|discriminate]. cbn in H. destruct r as [? [[|]|]| | | | | | | | |]; cbn in H; try discriminate. reflexivity.
  - unfold rd_result. destruct c as [|z|]; cbn [rd_int]; try (destruct k; discriminate). cbn [code].
    destruct (rd_bytes d); [|destruct k; discriminate]. destruct (rd_bytes m); [|destruct k; discriminate].
    destruct k; try discriminate; cbn [option_map opt2]; intros H; destruct r as [? [[|]|]| | | | | | | | |]; cbn in H; try discriminate; try (injection H as <-; reflexivity);
      destruct (rd_opt rd_bytes _); try discriminate; injection H; intros; subst; reflexivity.
  - unfold rd_result. destruct c as [|z|]; cbn [rd_int]; try discriminate. cbn [code].
    destruct (rd_bytes d); [|discriminate]. destruct (rd_bytes m); [|discriminate].
    destruct (rd_opt rd_bytes n); [|discriminate]. destruct (rd_opt rd_bytes rv); [|discriminate]. intros H.
    destruct r as [? [[|]|]| | | | | | | | |]; cbn in H; try discriminate. injection H; intros; subst; reflexivity.
  - intros H. destruct (rd_bytes _); [|discriminate]. destruct (all_some _); [|discriminate]. cbn in H. destruct r as [? [[|]|]| | | | | | | | |]; cbn in H; try discriminate. reflexivity.
Qed.
Lemma request_delete q d : request_obj q = request_obj (Delete d) -> q = Delete d.
Proof. destruct q as [? ? [|]| | | | | | | | |]; try discriminate. intros H. injection H as ->. reflexivity. Qed.
Lemma read_delete req d : read_request req = Some (Delete d) -> exists t, req = OStr KDelReq t d.
Proof.
  destruct req; try discriminate; cbn [read_request].
  all: try (destruct k; discriminate).
  all: try (unfold opt2; repeat (match goal with |- context [match ?x with _ => _ end] => destruct x end; try discriminate)).
  all: intros H; injection H as <-; eauto.
Qed.
Lemma gave_came io t n k c r : each (called io) t -> gave t n k c r -> forall id req cs names, came t k id req cs names -> exists w u, due io w u k req names c /\ (forall e, In e u -> In e t).
Proof.
  intros CD (A & _) id req cs names CM. apply in_split in A as (u & u' & A). pose proof (CD _ _ _ A) as (_ & _ & id' & req' & cs' & names' & CM' & _ & D).
  assert (SUB : forall e, In e u -> In e t) by (intros e I; rewrite A; apply in_or_app; now left).
  pose proof (came_one io t CD _ _ _ _ _ _ _ _ _ CM (SUB _ CM')) as E. injection E as <- <- <- <-. exists (who u), u. auto.
Qed.
Lemma deleted lower io oc_first root t a k id d tg cs names r b c : each (called io) t -> each (LateSpec.written lower oc_first root) t -> each truthful t ->
  t = a ++ TWrite k id (response_obj r) b :: c -> came a k id (OStr KDelReq tg d) cs names -> code (response_obj r) = 0 ->
  (forall n m, ~ In (LateModel.TFired n (DErr (ELdap 0) m)) t) ->
  exists to e o n n', to_dn io (VBytes d) = Ok to /\ gave t n k (CLookup to) (DOk (Some e)) /\ gave t n' k (CDelete e) (DOk o).
Proof.
  intros CD WR TR E CM C0 N0. assert (SUB : forall e, In e a -> In e t) by (intros e I; rewrite E; apply in_or_app; now left).
  pose proof (WR _ _ _ E) as (_ & _ & req & cs2 & names2 & CM2 & X).
  pose proof (came_one io t CD _ _ _ _ _ _ _ _ _ (SUB _ CM) (SUB _ CM2)) as Y. injection Y as <- <- <-. clear CM2.
  destruct X as [(_ & (? & ? & ? & ? & ? & ? & ? & ? & ? & H & _))|(NE & _ & _)]; [discriminate|].
  assert (TT : truth a k (OStr KDelReq tg d) (response_obj r)).
  { eapply (TR _ _ _ E); [|exact CM]. cbn [result_in]. rewrite Nat.eqb_refl. destruct r; try reflexivity. destruct NE. exact I. }
  destruct TT as (F & S0).
  assert (SG : forall n c r, gave a n k c r -> gave t n k c r) by (intros ? ? ? (A & B); split; apply SUB; assumption).
  destruct S0 as (S0 & _).
  { intros n c' x m G. pose proof (F n c' x m G) as FC. rewrite C0 in FC. destruct G as (_ & G). apply SUB in G.
    destruct x; cbn in FC; try discriminate; destruct c'; try discriminate; subst; try (now apply (N0 n m)). }
  destruct (S0 C0) as [[]|(o & n & c' & G & M & _)]. destruct c'; try now destruct M.
  destruct (gave_came io t n k _ _ CD (SG _ _ _ G) _ _ _ _ (SUB _ CM)) as (w & u & (FO & _) & SU). destruct FO as (n2 & to & (G1 & G2)).
  assert (G' : gave t n2 k (CLookup to) (DOk (Some e))) by (split; apply SU; assumption).
  destruct (gave_came io t n2 k _ _ CD G' _ _ _ _ (SUB _ CM)) as (w2 & u2 & L & _).
  exists to, e, o, n2, n. split; [exact L|]. split; [exact G'|apply SG, G].
Qed.
