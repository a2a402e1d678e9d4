(** Proofs about ProxyBase: the hooks it has by itself, and what happens when either side goes. *)
From Verif Require Import Base BaseFacts BerModel LdapModel ServerModel ClientModel ProxyModel ProxySpec ProxyProofs ProxyOrder.

(** Events of a step *)
Definition ext (P : pev -> Prop) (s s' : pst) : Prop := exists o, p_trace s' = p_trace s ++ o /\ Forall P o.
Lemma ext_refl P s : ext P s s. Proof. exists []. split; [symmetry; apply app_nil_r|constructor]. Qed.
Lemma ext_trans P s t u : ext P s t -> ext P t u -> ext P s u.
Proof. intros (o & E & H) (o' & E' & H'). exists (o ++ o'). split; [rewrite E', E; symmetry; apply app_assoc|apply Forall_app; auto]. Qed.
Lemma ext_impl (P Q : pev -> Prop) s s' : (forall e, P e -> Q e) -> ext P s s' -> ext Q s s'.
Proof. intros H (o & E & F). exists o. split; [exact E|]. eapply Forall_impl; eauto. Qed.
Lemma ext_emit (P : pev -> Prop) e s : P e -> ext P s (emit e s).
Proof. intros H. exists [e]. split; [reflexivity|constructor; [exact H|constructor]]. Qed.
Lemma ext_same P s s' : p_trace s' = p_trace s -> ext P s s'.
Proof. intros E. exists []. split; [rewrite E; symmetry; apply app_nil_r|constructor]. Qed.

(** No response, and no controls *)
Definition plain (e : pev) : Prop := match e with PArrived _ _ _ => False | PForward _ _ cs _ => cs = None | _ => True end.
Lemma frame_plain s s' : frame s s' -> ext plain s s'.
Proof. intros [_ _ _ _ (o & E & H) _ _ _]. exists o. split; [exact E|]. eapply Forall_impl; [|exact H]. intros e A. destruct e as [| | | |? ? []| | | | | | | |]; try contradiction; exact I. Qed.
Lemma run_seq_talk b q s : ext (talk b) s (run_seq b q s).
Proof.
  unfold run_seq. destruct (q_linked q); [|now apply ext_same]. destruct (drain_ok (q_id q) b (q_items q) s) as (D & items' & linked & o & E & _ & TK & _). rewrite E. exists o. auto.
Qed.
Lemma talk_plain b e : talk b e -> plain e.
Proof. destruct e as [| | | |? ? []| | | | | | | |]; try contradiction; intros _; exact I. Qed.

Section End_.
  Variable before : obj -> ctrls -> hook.
  Variable after : obj -> obj -> ctrls -> ahook.
  Variable use_tls options : bool.
  Notation step := (step before after use_tls options).
  Notation run := (run before after use_tls options).
  Notation forward := (forward before).
  Notation backlog := (backlog before).

  Lemma told_plain n id h s : ext plain s (told n id h s).
  Proof.
    unfold told. destruct h as [op' cs'|vs| |] eqn:EH; [| | |apply ext_refl]; rewrite <- EH; (eapply ext_trans; [apply (ext_emit plain (PTold n id h)); exact I|]).
    - set (s1 := emit (PTold n id h) s). destruct (p_client s1); [|apply ext_emit; exact I]. destruct (needs_answer op').
      + destruct (send_multi _ _ _ _) as ((m & l) & [|e|e]).
        * exists [PForward (p_next s1) op' None id]. split; [reflexivity|constructor; [reflexivity|constructor]].
        * exists [PRaised e]. split; [reflexivity|constructor; [exact I|constructor]].
        * exists [PRaised e]. split; [reflexivity|constructor; [exact I|constructor]].
      + destruct (send_none _ _ _) as (m & [|e|e]).
        * exists [PForward (p_next s1) op' None id]. split; [reflexivity|constructor; [reflexivity|constructor]].
        * exists [PRaised e]. split; [reflexivity|constructor; [exact I|constructor]].
        * exists [PRaised e]. split; [reflexivity|constructor; [exact I|constructor]].
    - apply frame_plain, frame_bypass.
    - apply ext_emit. exact I.
  Qed.
  Lemma forward_plain id op cs s : ext plain s (forward id op cs s).
  Proof.
    unfold ProxyModel.forward. destruct (p_client s); [|now apply ext_same]. eapply ext_trans; [apply (ext_same _ _ (with_asks (S (p_asks s)) s) eq_refl)|].
    eapply ext_trans; [apply (ext_emit plain (PAsk (p_asks s) id op cs)); exact I|]. destruct (before op cs); try apply told_plain. now apply ext_same.
  Qed.
  Lemma told_later_plain n h s : ext plain s (told_later n h s).
  Proof. destruct (told_later_cases n h s) as [-> | (id & _ & _ & ->)]; [apply ext_refl|]. apply (told_plain n id h (with_late _ s)). Qed.
  Lemma backlog_plain l : forall s, ext plain s (backlog l s).
  Proof.
    induction l as [|((id & op) & cs) l IH]; intros s; [apply ext_refl|]. cbn [ProxyModel.backlog]. eapply ext_trans; [|apply IH]. exact (forward_plain id op cs (with_queued l s)).
  Qed.
  Lemma handle_plain msg s : ext plain s (handle before options msg s).
  Proof.
    unfold handle. destruct msg as [| | | | | | | | |tag id op cs| | | | | | | | | | | |]; try (apply ext_emit; exact I).
    destruct (kind_of op); [|apply ext_emit; exact I].
    assert (E1 : ext plain s (emit (PGot id op cs) s)) by (apply ext_emit; exact I).
    set (body := match op with OExtReq _ _ _ => _ | _ => _ end).
    assert (GO : ext plain s body).
    { eapply ext_trans; [exact E1|]. unfold body. destruct op as [| | |k tg| | | | | | | | | | | | | | | | | |tg nm v]; try apply forward_plain.
      - destruct k; try apply forward_plain. exact (forward_plain id (ONull KUnbind tg) cs (with_unbound true (emit (PGot id (ONull KUnbind tg) cs) s))).
      - destruct nm as [|z|nm]; try apply forward_plain. destruct (bytes_eqb nm starttls_oid); [apply frame_plain, frame_start_tls|apply forward_plain]. }
    clearbody body. destruct id as [|z|bs]; try exact GO. destruct z; [apply ext_refl|exact GO|exact GO].
  Qed.
  Lemma later_plain n r s : ext plain s (later n r s).
  Proof.
    unfold later. destruct (find _ _) as [(b & q)|]; [|apply ext_refl]. eapply ext_trans; [apply (ext_emit plain (PHook n r)); exact I|]. eapply ext_impl; [apply (talk_plain b)|apply run_seq_talk].
  Qed.
  (** One response *)
  Lemma got_events b v w s : exists o, p_trace (got_response after b v w s) = p_trace s ++ PArrived b (p_calls s) v :: o /\ Forall plain o /\
    (forall r, after v (ps_op w) (ps_cs w) = ANow r -> exists o', o = PHook (p_calls s) (Some r) :: o').
  Proof.
    unfold got_response. set (s1 := emit (PArrived b (p_calls s) v) (with_calls (S (p_calls s)) s)). assert (T1 : p_trace s1 = p_trace s ++ [PArrived b (p_calls s) v]) by reflexivity.
    assert (G : forall s2, (exists h, p_trace s2 = p_trace s1 ++ h /\ Forall plain h /\ (forall r, after v (ps_op w) (ps_cs w) = ANow r -> h = [PHook (p_calls s) (Some r)])) ->
      forall d, exists o, p_trace (match find (fun x => fst x =? b) (p_seqs s2) with None => s2 | Some (_, q) => let items := q_items q ++ [(p_calls s, d)] in
        run_seq b (mkSeq items (match items with [_] => true | _ => q_linked q end) (q_id q)) s2 end) = p_trace s ++ PArrived b (p_calls s) v :: o /\ Forall plain o /\
        (forall r, after v (ps_op w) (ps_cs w) = ANow r -> exists o', o = PHook (p_calls s) (Some r) :: o')).
    { intros s2 (h & E & P & HA) d. set (s3 := match find _ _ with None => _ | Some _ => _ end). assert (TK : ext (talk b) s2 s3) by (unfold s3; destruct (find _ _) as [(? & q)|]; [apply run_seq_talk|apply ext_refl]).
      destruct TK as (o & E3 & TK). exists (h ++ o). split; [rewrite E3, E, T1, <- !app_assoc; reflexivity|]. split; [apply Forall_app; split; [exact P|eapply Forall_impl; [|exact TK]; apply talk_plain]|].
      intros r A. rewrite (HA r A). exists o. reflexivity. }
    destruct (after v (ps_op w) (ps_cs w)) as [r| |].
    - apply (G (emit (PHook (p_calls s) (Some r)) s1)). exists [PHook (p_calls s) (Some r)]. split; [reflexivity|]. split; [constructor; [exact I|constructor]|]. intros r' E. congruence.
    - apply (G s1). exists []. split; [symmetry; apply app_nil_r|]. split; [constructor|discriminate].
    - apply (G (emit (PHook (p_calls s) None) s1)). exists [PHook (p_calls s) None]. split; [reflexivity|]. split; [constructor; [exact I|constructor]|discriminate].
  Qed.
  Lemma response_events msg s : ext plain s (response after msg s) \/ exists b v w, p_trace (response after msg s) = p_trace (got_response after b v w s).
  Proof.
    unfold response. destruct msg as [| | | | | | | | |tag id v cs| | | | | | | | | | | |]; try (left; apply ext_emit; exact I).
    destruct (is_response v); [|left; apply ext_emit; exact I]. destruct id as [|i|bs]; try (left; apply ext_emit; exact I). destruct (i =? 0); [left; apply ext_refl|].
    destruct (find _ _) as [(j & w)|]; [|left; apply ext_emit; exact I]. right. exists i, v, w. destruct (last_response v); reflexivity.
  Qed.
  Lemma step_events s e : ext plain s (step s e) \/ exists b v w, p_trace (step s e) = p_trace (got_response after b v w s).
  Proof.
    destruct e as [| | |ok|msg|msg| | |n h|n r|n]; cbn [ProxyModel.step]; try (left; now apply ext_same).
    - left. destruct (p_phase s); now apply ext_same.
    - left. destruct (p_phase s); try apply ext_refl. destruct use_tls; [now apply ext_same|]. cbn [with_phase with_link p_conn].
      destruct (p_conn s) as [[]|]; [exact (backlog_plain (p_queued s) (with_client true (with_phase PhDone (with_link (mkLink true []) s))))| |]; exists [PCloseServer]; (split; [reflexivity|constructor; [exact I|constructor]]).
    - left. destruct (p_phase s); try apply ext_refl. exact (frame_plain _ _ (frame_refuse (p_queued s) (with_phase PhDone s))).
    - left. destruct (p_phase s); try apply ext_refl. destruct ok; [exact (backlog_plain (p_queued s) (with_client true (with_phase PhDone s)))|exact (frame_plain _ _ (frame_refuse (p_queued s) (with_phase PhDone s)))].
    - left. destruct (p_conn s) as [[]|]; [apply handle_plain|apply ext_refl|apply ext_refl].
    - destruct (l_up (p_link s)); [apply response_events|left; apply ext_refl].
    - left. destruct (p_conn s) as [[]|]; try apply ext_refl. destruct (p_client s && l_up (p_link s)); [|exists [PLost]; split; [reflexivity|constructor; [exact I|constructor]]].
      destruct (p_unbound s); cbn [emit with_conn with_client with_unbound with_next p_trace].
      + exists [PCloseServer; PLost]. cbn. rewrite <- app_assoc. split; [reflexivity|repeat (constructor; [exact I|]); constructor].
      + exists [PUnbind; PCloseServer; PLost]. cbn. rewrite <- !app_assoc. split; [reflexivity|repeat (constructor; [exact I|]); constructor].
    - left. apply told_later_plain.
    - left. apply later_plain.
  Qed.

  (** *** Controls *)
  Lemma no_controls next es b op cs id : In (PForward b op cs id) (p_trace (run next es)) -> cs = None.
  Proof.
    unfold ProxyModel.run. assert (G : forall b op cs id, In (PForward b op cs id) (p_trace (p0 next)) -> cs = None) by contradiction. revert b op cs id G. generalize (p0 next).
    induction es as [|e es IH]; intros s b op cs id G I; [exact (G _ _ _ _ I)|]. cbn [fold_left] in I. eapply IH; [|exact I]. clear I b op cs id. intros b op cs id I.
    destruct (step_events s e) as [(o & E & H)|(b1 & v & w & E)].
    - rewrite E in I. apply in_app_or in I as [I|I]; [exact (G _ _ _ _ I)|]. rewrite Forall_forall in H. exact (H _ I).
    - rewrite E in I. destruct (got_events b1 v w s) as (o & E' & H & _). rewrite E' in I. apply in_app_or in I as [I|[I|I]]; [exact (G _ _ _ _ I)|discriminate|]. rewrite Forall_forall in H. exact (H _ I).
  Qed.

  (** *** handleProxiedResponse of ProxyBase *)
  Definition paired (t : list pev) : Prop := forall b n v, In (PArrived b n v) t -> In (PHook n (Some (Some v))) t.
  Lemma run_paired next es : after = default_after -> paired (p_trace (run next es)).
  Proof.
    intros A. unfold ProxyModel.run. assert (G : paired (p_trace (p0 next))) by (intros ? ? ? []). revert G. generalize (p0 next).
    induction es as [|e es IH]; intros s G; [exact G|]. cbn [fold_left]. apply IH. intros b n v I. destruct (step_events s e) as [(o & E & H)|(b1 & v1 & w & E)]; rewrite E in *.
    - apply in_app_or in I as [I|I]; [apply in_or_app; left; eauto|]. rewrite Forall_forall in H. destruct (H _ I).
    - destruct (got_events b1 v1 w s) as (o & E' & H & HA). rewrite E' in *. destruct (HA (Some v1)) as (o' & EO); [now rewrite A|]. subst o. apply in_app_or in I as [I|[I|I]].
      + apply in_or_app. left. eauto.
      + inversion I. subst. apply in_or_app. right. right. now left.
      + rewrite Forall_forall in H. destruct (H _ I).
  Qed.
End End_.
Definition arr2 (b : Z) (t : list pev) : list (nat * obj) := flat_map (fun e => match e with PArrived b' n v => if b' =? b then [(n, v)] else [] | _ => [] end) t.
Lemma arr2_arrivals b t : map fst (arr2 b t) = arrivals b t.
Proof. induction t as [|e t IH]; [reflexivity|]. cbn [arr2 arrivals flat_map]. fold (arr2 b t). fold (arrivals b t). rewrite map_app, IH. destruct e; try reflexivity. now destruct (b0 =? b). Qed.
Lemma arr2_answers b t : map snd (arr2 b t) = answers b t.
Proof. induction t as [|e t IH]; [reflexivity|]. cbn [arr2 answers flat_map]. fold (arr2 b t). fold (answers b t). rewrite map_app, IH. destruct e; try reflexivity. now destruct (b0 =? b). Qed.
Lemma arr2_in b n v t : In (n, v) (arr2 b t) -> In (PArrived b n v) t.
Proof.
  unfold arr2. rewrite in_flat_map. intros (e & I & H). destruct e; try contradiction. destruct (b0 =? b) eqn:E; [|contradiction]. apply Z.eqb_eq in E. subst b0. destruct H as [H|[]]. inversion H. now subst.
Qed.
Lemma prefix_vals (P : nat -> option obj -> Prop) : (forall n r r', P n r -> P n r' -> r = r') -> forall A D Q, map fst A = map fst D ++ Q -> Forall (fun x => P (fst x) (Some (snd x))) A -> Forall (fun x => P (fst x) (snd x)) D ->
  exists rest, map snd A = vals D ++ rest /\ length rest = length Q.
Proof.
  intros F. induction A as [|(n & v) A IH]; intros D Q E HA HD.
  - destruct D; [|discriminate]. destruct Q; [|discriminate]. exists []. auto.
  - destruct D as [|(m & r) D].
    + exists (v :: map snd A). split; [reflexivity|]. cbn in E. rewrite <- E. cbn. now rewrite !map_length.
    + cbn [map fst app] in E. inversion E. subst m. destruct (IH D Q H1 (Forall_inv_tail HA) (Forall_inv_tail HD)) as (rest & E' & L).
      pose proof (F _ _ _ (Forall_inv HA) (Forall_inv HD)) as R. cbn in R. subst r. exists rest. split; [cbn; now rewrite E'|exact L].
Qed.
Lemma default_responses before use_tls options next es b op cs id : let t := p_trace (run before default_after use_tls options next es) in In (PForward b op cs id) t ->
  subseq (replies b t) (map (pair id) (answers b t)) /\
  (p_conn (run before default_after use_tls options next es) = Some true -> (forall v, In v (answers b t) -> writable id v) -> replies b t = map (pair id) (answers b t)).
Proof.
  intros t I. destruct (order before default_after use_tls options next es b op cs id I) as (D & Q & E & HD & SB & EX). fold t in E, HD, SB, EX.
  pose proof (run_paired before default_after use_tls options next es eq_refl) as PA. fold t in PA.
  destruct (prefix_vals (fun n r => gave n (Some r) t)) with (A := arr2 b t) (D := D) (Q := Q) as (rest & E' & L).
  - intros n r r' G G'. pose proof (gave_once _ _ _ _ _ _ _ _ _ G G') as X. congruence.
  - rewrite arr2_arrivals. exact E.
  - apply Forall_forall. intros (n & v) X. apply arr2_in in X. exact (PA _ _ _ X).
  - exact HD.
  - rewrite arr2_answers in E'. rewrite E', map_app. split; [apply subseq_skip; exact SB|]. intros C W. destruct (EX C) as (EV & NQ).
    + intros n v In_ G. apply W. rewrite <- arr2_arrivals in In_. apply in_map_iff in In_ as ((n' & v') & EN & IN). cbn in EN. subst n'. pose proof (PA _ _ _ (arr2_in _ _ _ _ IN)) as G'.
      pose proof (gave_once _ _ _ _ _ _ _ _ _ G G') as X. inversion X. subst v'. rewrite <- E', <- arr2_answers. apply in_map_iff. exists (n, v). auto.
    + destruct Q as [|n Q']; [|exfalso].
      * destruct rest; [|discriminate]. now rewrite app_nil_r.
      * assert (IN : In n (arrivals b t)) by (rewrite E; apply in_or_app; right; now left). rewrite <- arr2_arrivals in IN. apply in_map_iff in IN as ((n' & v) & EN & IN). cbn in EN. subst n'.
        exact (NQ n Q' (Some v) eq_refl (PA _ _ _ (arr2_in _ _ _ _ IN))).
Qed.

(** *** The client goes *)
Definition gone_event (e : pev) : Prop := match e with PGot _ _ _ | PForward _ _ _ _ | PReply _ _ _ | PTls => False | _ => True end.
Section Gone.
  Variable before : obj -> ctrls -> hook.
  Variable after : obj -> obj -> ctrls -> ahook.
  Variable options : bool.
  Notation step := (step before after false options).
  Notation run := (run before after false options).
  Definition gone_ok (s : pst) : Prop :=
    p_phase s <> PhTls /\ (p_conn s = Some false -> p_client s = false) /\ (p_conn s = Some false -> l_up (p_link s) = true -> In PCloseServer (p_trace s)) /\
    (p_conn s = Some true -> l_up (p_link s) = true -> p_client s = true) /\ (p_phase s = PhNew -> p_conn s = None) /\ (p_phase s = PhNew \/ p_phase s = PhConnecting -> l_up (p_link s) = false).
  Lemma trace_grows s e x : In x (p_trace s) -> In x (p_trace (step s e)).
  Proof.
    intros I. destruct (step_events before after false options s e) as [(o & E & _)|(b & v & w & E)]; rewrite E; [apply in_or_app; now left|].
    destruct (got_events after b v w s) as (o & E' & _). rewrite E'. apply in_or_app. now left.
  Qed.
  Lemma step_gone s e : core before s -> gone_ok s -> gone_ok (step s e).
  Proof.
    intros FR (G1 & G2 & G3 & G4 & G5 & G6). pose proof (trace_grows s e PCloseServer) as TG.
    assert (EQ : forall s', p_phase s' = p_phase s -> p_conn s' = p_conn s -> p_client s' = p_client s -> l_up (p_link s') = l_up (p_link s) -> (In PCloseServer (p_trace s) -> In PCloseServer (p_trace s')) -> gone_ok s').
    { intros s' E1 E2 E3 E4 E5. unfold gone_ok. rewrite E1, E2, E3, E4. repeat (split; auto). }
    destruct e as [| | |ok|msg|msg| | |n h|n r|n]; cbn [ProxyModel.step] in *.
    - destruct (p_phase s) eqn:PH; try (apply EQ; auto; fail). unfold gone_ok. cbn [with_phase with_conn p_phase p_conn p_client p_link p_trace]. split; [discriminate|]. split; [discriminate|]. split; [discriminate|].
      rewrite G6 by now left. split; [discriminate|]. split; [discriminate|reflexivity].
    - destruct (p_phase s) eqn:PH; try (apply EQ; auto; fail). cbn [with_phase with_link p_conn] in *. destruct (p_conn s) as [[]|] eqn:CO.
      + set (s1 := with_client true (with_phase PhDone (with_link (mkLink true []) s))) in *. destruct (backlog_up before after (p_queued s) s1 eq_refl) as (_ & (B1 & B2 & B3 & _ & B6 & _) & _); [destruct FR as (_ & FR); split; [constructor|exact FR]|exact (fun E => E)|].
        change (p_conn s1) with (p_conn s) in B1. change (p_phase s1) with PhDone in B2. change (l_up (p_link s1)) with true in B6. cbn [p_queued with_phase with_link] in *. unfold gone_ok. rewrite B1, B2, B3, B6, CO. change (p_client s1) with true.
        split; [discriminate|]. split; [discriminate|]. split; [discriminate|]. split; [reflexivity|]. split; [discriminate|]. intros [X|X]; discriminate.
      + unfold gone_ok. cbn [emit with_queued with_phase with_link p_conn p_client p_phase p_link p_trace l_up]. rewrite CO. split; [discriminate|]. split; [intros _; now apply G2|]. split; [intros _ _; apply in_or_app; right; now left|].
        split; [discriminate|]. split; [discriminate|]. intros [X|X]; discriminate.
      + unfold gone_ok. cbn [emit with_queued with_phase with_link p_conn p_client p_phase p_link p_trace l_up]. rewrite CO. split; [discriminate|]. split; [discriminate|]. split; [discriminate|]. split; [discriminate|]. split; [discriminate|]. intros [X|X]; discriminate.
    - destruct (p_phase s) eqn:PH; try (apply EQ; auto; fail). destruct (refuse_same (p_queued s) (with_phase PhDone s)) as (A1 & A2 & A3 & A4 & _). cbn [with_phase p_queued p_conn p_phase p_client p_link] in *.
      unfold gone_ok. rewrite A1, A2, A3, A4. split; [discriminate|]. split; [exact G2|]. split; [auto|]. split; [exact G4|]. split; [discriminate|]. intros [X|X]; discriminate.
    - destruct (p_phase s) eqn:PH; try (apply EQ; auto; fail). destruct (G1 eq_refl).
    - destruct (p_conn s) as [[]|] eqn:CO; [|apply EQ; auto; fail|apply EQ; auto; fail]. destruct (handle_frame before after options msg s FR) as (A1 & A2 & A3 & A4). apply EQ; auto. congruence.
    - destruct (l_up (p_link s)) eqn:U; [|apply EQ; auto; fail]. destruct (same_response before after msg s) as (A1 & A2 & A3 & _ & _ & _ & _ & A8 & _). apply EQ; auto. congruence.
    - unfold gone_ok. cbn. split; [exact G1|]. split; [exact G2|]. split; [discriminate|]. split; [discriminate|]. split; [exact G5|reflexivity].
    - destruct (p_conn s) as [[]|] eqn:CO; [|apply EQ; auto; fail|apply EQ; auto; fail]. set (s1 := if p_client s && l_up (p_link s) then _ else s) in *.
      assert (S1 : p_phase s1 = p_phase s /\ p_link s1 = p_link s /\ (p_client s && l_up (p_link s) = true -> In PCloseServer (p_trace s1))).
      { unfold s1. destruct (p_client s && l_up (p_link s)); [|split; [reflexivity|split; [reflexivity|discriminate]]]. destruct (p_unbound s); (split; [reflexivity|split; [reflexivity|]]); intros _; cbn; apply in_or_app; right; now left. }
      clearbody s1. destruct S1 as (E1 & E2 & E3). unfold gone_ok. cbn [emit with_conn with_client p_phase p_conn p_client p_link p_trace]. rewrite E1, E2. split; [exact G1|]. split; [reflexivity|].
      split. { intros _ U. apply in_or_app. left. apply E3. rewrite (G4 eq_refl U), U. reflexivity. }
      split; [discriminate|]. split; [intros X; specialize (G5 X); discriminate|exact G6].
    - destruct (told_later_up before after n h s FR) as (_ & (B1 & B2 & B3 & _ & B5 & _) & _). apply EQ; auto.
    - destruct (same_later n r s) as [B1 B2 B3 B4 _ _ _ _ _]. apply EQ; auto. congruence.
    - apply EQ; auto.
  Qed.
  Lemma gone_reply id b v s : p_conn s = Some false -> fst (reply id b v s) = s.
  Proof. intros C. unfold reply. destruct v; [|reflexivity]. now rewrite C. Qed.
  Lemma gone_refuse l : forall s, p_conn s = Some false -> ext gone_event s (refuse l s) /\ p_conn (refuse l s) = Some false.
  Proof.
    induction l as [|((id & op) & cs) l IH]; intros s C; cbn [refuse]; [split; [apply ext_emit; exact I|exact C]|].
    assert (GO : ext gone_event s (refuse l (with_queued l s)) /\ p_conn (refuse l (with_queued l s)) = Some false) by exact (IH (with_queued l s) C).
    destruct op; try exact GO. set (v := res_obj _ _ _ _). pose proof (gone_reply id None (Some v) (with_queued l s) C) as G. destruct (reply id None (Some v) (with_queued l s)) as (s2 & [u|e]); cbn [fst] in G; subst s2; [exact GO|].
    split; [exists [PRaised e]; split; [reflexivity|constructor; [exact I|constructor]]|exact C].
  Qed.
  Lemma gone_drain id b items : forall s, p_conn s = Some false -> ext gone_event s (snd (drain id b items s)) /\ p_conn (snd (drain id b items s)) = Some false.
  Proof.
    induction items as [|(n & d) items IH]; intros s C; [split; [apply ext_refl|exact C]|]. cbn [drain]. destruct d; try (split; [apply ext_refl|exact C]).
    pose proof (gone_reply id (Some b) v s C) as G. destruct (reply id (Some b) v s) as (s' & [u|e]); cbn [fst] in G; subst s'; [now apply IH|]. cbn [snd]. split; [apply ext_emit; exact I|exact C].
  Qed.
  Lemma gone_run_seq b q s : p_conn s = Some false -> ext gone_event s (run_seq b q s) /\ p_conn (run_seq b q s) = Some false.
  Proof.
    intros C. unfold run_seq. destruct (q_linked q); [|split; [now apply ext_same|exact C]]. pose proof (gone_drain (q_id q) b (q_items q) s C) as H. destruct (drain (q_id q) b (q_items q) s) as ((it & li) & s'). exact H.
  Qed.
  Lemma gone_got b v w s : p_conn s = Some false -> ext gone_event s (got_response after b v w s) /\ p_conn (got_response after b v w s) = Some false.
  Proof.
    intros C. unfold got_response. set (s1 := emit (PArrived b (p_calls s) v) (with_calls (S (p_calls s)) s)).
    assert (H1 : ext gone_event s s1 /\ p_conn s1 = Some false) by (split; [exists [PArrived b (p_calls s) v]; split; [reflexivity|constructor; [exact I|constructor]]|exact C]). clearbody s1. destruct H1 as (H1 & C1).
    assert (G : forall s2 d, ext gone_event s s2 -> p_conn s2 = Some false -> let s3 := match find (fun x => fst x =? b) (p_seqs s2) with None => s2 | Some (_, q) => let items := q_items q ++ [(p_calls s, d)] in
        run_seq b (mkSeq items (match items with [_] => true | _ => q_linked q end) (q_id q)) s2 end in ext gone_event s s3 /\ p_conn s3 = Some false).
    { intros s2 d E2 C2. cbn zeta. destruct (find _ _) as [(? & q)|]; [|auto]. match goal with |- context [run_seq b ?Q s2] => destruct (gone_run_seq b Q s2 C2) as (X & Y) end. split; [eapply ext_trans; eauto|exact Y]. }
    destruct (after v (ps_op w) (ps_cs w)) as [r| |].
    - apply (G (emit (PHook (p_calls s) (Some r)) s1)); [|exact C1]. eapply ext_trans; [exact H1|apply ext_emit; exact I].
    - apply (G s1); assumption.
    - apply (G (emit (PHook (p_calls s) None) s1)); [|exact C1]. eapply ext_trans; [exact H1|apply ext_emit; exact I].
  Qed.
  Lemma gone_bypass id vs : forall s, p_conn s = Some false -> ext gone_event s (bypass id vs s) /\ p_conn (bypass id vs s) = Some false.
  Proof.
    induction vs as [|v vs IH]; intros s C; cbn [bypass]; [split; [apply ext_refl|exact C]|]. pose proof (gone_reply id None v s C) as G.
    destruct (reply id None v s) as (s2 & [u|e]); cbn [fst] in G; subst s2; [exact (IH s C)|]. split; [apply ext_emit; exact I|exact C].
  Qed.
  Lemma gone_told n id h s : p_conn s = Some false -> p_client s = false -> ext gone_event s (told n id h s) /\ p_conn (told n id h s) = Some false.
  Proof.
    intros C PC. unfold told. destruct h as [op' cs'|vs| |] eqn:EH; [| | |split; [apply ext_refl|exact C]]; rewrite <- EH.
    - cbn [emit p_client]. rewrite PC. split; [|exact C]. eapply ext_trans; [exact (ext_emit gone_event (PTold n id h) s I)|apply ext_emit; exact I].
    - destruct (gone_bypass id vs (emit (PTold n id h) s) C) as (X & Y). split; [|exact Y]. eapply ext_trans; [exact (ext_emit gone_event (PTold n id h) s I)|exact X].
    - split; [|exact C]. eapply ext_trans; [exact (ext_emit gone_event (PTold n id h) s I)|apply ext_emit; exact I].
  Qed.
  Lemma gone_step s e : gone_ok s -> p_conn s = Some false -> ext gone_event s (step s e) /\ p_conn (step s e) = Some false.
  Proof.
    intros (G1 & G2 & _ & _ & G5 & _) C. destruct e as [| | |ok|msg|msg| | |n h|n r|n]; cbn [ProxyModel.step]; try (split; [now apply ext_same|exact C]); rewrite ?C; try (split; [now apply ext_same|reflexivity]).
    - destruct (p_phase s) eqn:PH; try (split; [now apply ext_same|exact C]). pose proof (G5 eq_refl). congruence.
    - destruct (p_phase s) eqn:PH; try (split; [now apply ext_same|exact C]). cbn [with_phase with_link p_conn]. rewrite C. split; [|exact C]. exists [PCloseServer]. split; [reflexivity|constructor; [exact I|constructor]].
    - destruct (p_phase s) eqn:PH; try (split; [now apply ext_same|exact C]). exact (gone_refuse (p_queued s) (with_phase PhDone s) C).
    - destruct (p_phase s) eqn:PH; try (split; [now apply ext_same|exact C]). destruct (G1 eq_refl).
    - destruct (l_up (p_link s)); [|split; [now apply ext_same|exact C]]. unfold response. destruct msg as [| | | | | | | | |tag id v cs| | | | | | | | | | | |]; try (split; [apply ext_emit; exact I|exact C]).
      destruct (is_response v); [|split; [apply ext_emit; exact I|exact C]]. destruct id as [|i|bs]; try (split; [apply ext_emit; exact I|exact C]). destruct (i =? 0); [split; [now apply ext_same|exact C]|].
      destruct (find _ _) as [(j & w)|]; [|split; [apply ext_emit; exact I|exact C]]. destruct (gone_got i v w s C) as (X & Y). destruct (last_response v); split; assumption.
    - destruct (told_later_cases n h s) as [-> | (id & _ & _ & ->)]; [split; [now apply ext_same|exact C]|]. exact (gone_told n id h (with_late _ s) C (G2 C)).
    - unfold later. destruct (find _ _) as [(b & q)|]; [|split; [now apply ext_same|exact C]]. match goal with |- context [run_seq b ?Q ?S] => destruct (gone_run_seq b Q S C) as (X & Y) end. split; [|exact Y].
      eapply ext_trans; [|exact X]. apply ext_emit. exact I.
  Qed.
  Lemma run_gone next es : gone_ok (run next es) /\ queue_ok before (run next es) /\ phase_ok (run next es).
  Proof.
    unfold ProxyModel.run. assert (G : gone_ok (p0 next) /\ queue_ok before (p0 next) /\ phase_ok (p0 next)).
    { split; [|exact (start_ok before next)]. unfold gone_ok. cbn. repeat (split; [discriminate|]). split; reflexivity. }
    revert G. generalize (p0 next). induction es as [|e es IH]; intros s (G & Q & P); [auto|]. cbn [fold_left]. apply IH. split; [apply step_gone; [exact (proj1 (proj2 Q))|exact G]|]. now apply step_ok.
  Qed.
  Lemma gone_rest next es es' : p_conn (run next es) = Some false -> exists o, p_trace (run next (es ++ es')) = p_trace (run next es) ++ o /\ Forall gone_event o.
  Proof.
    intros C. assert (E : run next (es ++ es') = fold_left step es' (run next es)) by apply fold_left_app. rewrite E. clear E. destruct (run_gone next es) as (G & Q & P). revert C G Q P. generalize (run next es).
    induction es' as [|e es' IH]; intros s C G Q P; [apply (ext_refl gone_event)|]. cbn [fold_left]. destruct (gone_step s e G C) as (X & Y). eapply (ext_trans gone_event); [exact X|].
    pose proof (step_ok before after false options s e Q P) as (Q' & P'). apply IH; auto. apply step_gone; [exact (proj1 (proj2 Q))|exact G].
  Qed.
  Lemma gone_nothing o : Forall gone_event o -> forwarded o = [] /\ received o = [] /\ written o = [].
  Proof.
    induction 1 as [|e o H _ (I1 & I2 & I3)]; [auto|]. cbn [forwarded received written flat_map]. fold (forwarded o). fold (received o). fold (written o). rewrite I1, I2, I3. destruct e; try contradiction; auto.
  Qed.
End Gone.

(** *** The server goes *)
Definition deaf_event (e : pev) : Prop :=
  match e with PForward _ _ _ _ | PCloseClient => False | PReply _ v _ => exists c, v = ext_obj c (VBytes []) VNone | _ => True end.
Section Deaf.
  Variable before : obj -> ctrls -> hook.
  Variable after : obj -> obj -> ctrls -> ahook.
  Variable use_tls options : bool.
  Hypothesis forwards : forall op cs, passes (before op cs).
  Notation step := (step before after use_tls options).
  Definition deaf (s : pst) : Prop := p_phase s = PhDone /\ p_link s = mkLink false [] /\ p_seqs s = [] /\ Forall deaf_event (p_trace s).
  Lemma deaf_emit e s : deaf_event e -> deaf s -> deaf (emit e s).
  Proof. intros E (A & B & C & D). unfold deaf. cbn. repeat (split; [assumption|]). apply Forall_app. auto. Qed.
  Lemma deaf_reply id v s : (exists c, v = ext_obj c (VBytes []) VNone) -> deaf s -> deaf (fst (reply id None (Some v) s)).
  Proof. intros E D. destruct (reply_cases id None (Some v) s) as [-> | (w & W & _ & ->)]; [exact D|]. inversion W. subst w. apply deaf_emit; [exact E|exact D]. Qed.
  Lemma deaf_log id c s : deaf s -> deaf (reply_log id (ext_obj c (VBytes []) VNone) s).
  Proof.
    intros D. unfold reply_log. pose proof (deaf_reply id (ext_obj c (VBytes []) VNone) s (ex_intro _ c eq_refl) D) as H. destruct (reply _ _ _ s) as (s' & [u|e]); cbn [fst] in H; [exact H|]. apply deaf_emit; [exact I|exact H].
  Qed.
  Lemma deaf_told n id h s : passes h -> deaf s -> deaf (told n id h s).
  Proof.
    intros PS D. unfold told. destruct h as [op' cs'|vs| |] eqn:EH; [|contradiction| |exact D]; rewrite <- EH; apply (deaf_emit (PTold n id h)) in D; try exact I.
    - set (s1 := emit (PTold n id h) s) in *. clearbody s1. pose proof D as (A & B & C & E). destruct (p_client s1); [|apply deaf_emit; [exact I|exact D]]. destruct (needs_answer op').
      + unfold send_multi. rewrite B. cbn [l_up]. unfold deaf. cbn. repeat (split; [assumption || reflexivity|]). apply Forall_app. split; [exact E|constructor; [exact I|constructor]].
      + unfold send_none. rewrite B. cbn [l_up]. unfold deaf. cbn. repeat (split; [assumption || reflexivity|]). apply Forall_app. split; [exact E|constructor; [exact I|constructor]].
    - apply deaf_emit; [exact I|exact D].
  Qed.
  Lemma deaf_forward id op cs s : deaf s -> deaf (forward before id op cs s).
  Proof.
    intros D. unfold forward. destruct (p_client s); [|exact D]. assert (D1 : deaf (emit (PAsk (p_asks s) id op cs) (with_asks (S (p_asks s)) s))) by (apply deaf_emit; [exact I|exact D]).
    pose proof (forwards op cs) as PS. destruct (before op cs); try contradiction; [now apply deaf_told|now apply deaf_told|exact D1].
  Qed.
  Lemma deaf_told_later n h s : passes h -> deaf s -> deaf (told_later n h s).
  Proof. intros PS D. destruct (told_later_cases n h s) as [-> | (id & _ & _ & ->)]; [exact D|]. now apply deaf_told. Qed.
  Lemma deaf_step s e : passing e -> deaf s -> deaf (step s e).
  Proof.
    intros PE D. pose proof D as (A & B & C & E). destruct e as [| | |ok|msg|msg| | |n h|n r|n]; cbn [ProxyModel.step]; rewrite ?A; try exact D.
    - destruct (p_conn s) as [[]|]; [|exact D|exact D]. unfold handle. destruct msg as [| | | | | | | | |tag id op cs| | | | | | | | | | | |]; try (apply deaf_emit; [exact I|exact D]).
      destruct (kind_of op); [|apply deaf_emit; [exact I|exact D]]. assert (D1 : deaf (emit (PGot id op cs) s)) by (apply deaf_emit; [exact I|exact D]).
      set (body := match op with OExtReq _ _ _ => _ | _ => _ end).
      assert (GO : deaf body).
      { unfold body. destruct op as [| | |k tg| | | | | | | | | | | | | | | | | |tg nm v]; try apply deaf_forward, D1.
        - destruct k; try apply deaf_forward, D1.
        - destruct nm as [|z|nm]; try apply deaf_forward, D1. destruct (bytes_eqb nm starttls_oid); [|apply deaf_forward, D1]. unfold start_tls. destruct options; [|apply deaf_log, D1].
          destruct (p_tls _); [apply deaf_log, D1|]. match goal with |- context [reply id None (Some ?V) ?S] => pose proof (deaf_reply id V S (ex_intro _ 0 eq_refl) D1) as H; destruct (reply id None (Some V) S) as (s' & [u|e]); cbn [fst] in H end.
          + apply (deaf_emit PTls) in H; [|exact I]. destruct H as (X1 & X2 & X3 & X4). unfold deaf. cbn in *. auto.
          + apply deaf_emit; [exact I|exact H]. }
      clearbody body. destruct id as [|z|bs]; try exact GO. destruct z; [exact D|exact GO|exact GO].
    - rewrite B. exact D.
    - unfold deaf. cbn. auto.
    - destruct (p_conn s) as [[]|]; [|exact D|exact D]. rewrite B. cbn [l_up]. rewrite andb_false_r. apply deaf_emit; [exact I|]. unfold deaf. cbn. auto.
    - now apply deaf_told_later.
    - unfold later. rewrite C. exact D.
  Qed.
  Lemma deaf_run s es : Forall passing es -> deaf s -> deaf (fold_left step es s).
  Proof. revert s. induction es as [|e es IH]; intros s P D; [exact D|]. inversion P. subst. cbn [fold_left]. apply IH; [assumption|]. now apply deaf_step. Qed.
End Deaf.
