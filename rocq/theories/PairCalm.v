(** A client whose user keeps to the rules and a server raise nothing in each other, and every request completes. *)
From Verif Require Import Base BaseFacts BerModel BerSpec BerProofs LdapModel LdapSpec LdapProofs StreamModel StreamSpec StreamProofs DnModel EntryModel
  ServerModel ServerSpec ClientModel ClientSpec ClientProofs ClientStream LateModel LateSpec LateProofs PairModel PairSpec PairClient PairServer PairProofs PairFacts PairGood.

Lemma each_app (P : list tev -> tev -> Prop) a e b : each P (a ++ e :: b) -> P a e. Proof. intros H. now apply (H a e b). Qed.

Lemma read_unbind req : read_request req = Some Unbind -> exists t, req = ONull KUnbind t.
Proof.
  destruct req; cbn [read_request]; unfold opt2; intros E; try discriminate; try (destruct k; try discriminate; now eauto);
    repeat match type of E with context [match ?x with _ => _ end] => destruct x end; discriminate.
Qed.
Lemma read_search t b sc de si ti ty f at_ q : read_request (OSearchReq t b sc de si ti ty f at_) = Some (seen_request q) -> is_search (request_obj q).
Proof.
  cbn [read_request]. intros E. repeat match type of E with context [match ?x with Some _ => _ | None => _ end] => destruct x; [|discriminate] end.
  destruct q as [? ? [?|? [[|]|]]| | | | | | | | |]; try discriminate. exact Logic.I.
Qed.

Section Calm.
  Variable reps : list ClientModel.tev -> nat.
  Variable choose : list ClientModel.tev -> option useract.
  Variable verdict : list ClientModel.tev -> res bool.
  Variable lower : str -> str.
  Variable io : Z -> Z -> res Z.
  Variable oc_first : bool.
  Variable text : exn -> bytes.
  Variable root : ent.
  Variable next : Z.
  Hypothesis law : lawful_user choose.
  Hypothesis mild : modest_user choose.
  Hypothesis tells : tells_last verdict.
  Hypothesis IO : forall a b c, io a b <> Err (ELdap c).
  Hypothesis pos : 0 < next.
  Local Notation prun := (PairModel.prun reps choose verdict lower io oc_first text root next).
  Local Notation pstep := (PairModel.pstep reps choose verdict lower io oc_first text root).
  Local Notation srun := (lrun lower io oc_first text root).
  Local Notation PI := (PairProofs.PI reps choose verdict lower io oc_first text root next).
  Local Notation ctr p := (c_trace (p_client p)).
  Local Notation str_ p := (l_trace (p_server p)).

  (** What was written for a message that the server took *)
  Lemma meant_sent p ces les ms m : PI p ces les ms -> MI (p_client p) -> In m ms -> snd (fst m) = Unbind \/ In (mid m) (sents (ctr p)).
  Proof.
    intros P M I. pose proof (ci_enc _ _ _ (pi_ci _ _ _ _ _ _ _ _ _ _ _ _ _ P)) as F. apply in_split in I as (x & y & ->).
    destruct (Forall2_app_inv_l _ _ F) as (w1 & w2 & _ & F2 & E). inversion F2 as [|? w ? w3 S0 F3]; subst.
    destruct (mi_wrote _ M w) as (m' & S1 & H). { change (writes_of (c_trace (p_client p))) with (client_writes (p_client p)) in *. rewrite E. apply in_or_app. right. now left. }
    destruct (request_message_seen _ _ _ _ S0) as (o & R & Q & _). destruct (request_message_seen _ _ _ _ S1) as (o' & R' & Q' & _).
    rewrite (reads_fun _ _ _ _ R' R), Q in Q'. injection Q' as E1 E2 _. rewrite E1. destruct H as [H|H]; [left|now right].
    rewrite H in E2. destruct (snd (fst m)) as [? ? [|? [[|]|]]| | | | | | | | |]; cbn in E2; try discriminate. reflexivity.
  Qed.
  (** Requests are numbered by the server as they come, each id once *)
  Lemma came_k p ces les ms i k k' req req' cs cs' names names' : PI p ces les ms -> came (str_ p) k (VInt i) req cs names -> came (str_ p) k' (VInt i) req' cs' names' -> k = k'.
  Proof.
    intros P A B. destruct (pi_up _ _ _ _ _ _ _ _ _ _ _ _ _ P) as (m1 & m2 & w1 & w2 & E1 & _ & _ & _ & _ & R).
    pose proof (ci_nd _ _ _ (pi_ci _ _ _ _ _ _ _ _ _ _ _ _ _ P)) as ND. rewrite E1, map_app in ND.
    assert (ND1 : NoDup (map mid m1)). { clear - ND. induction (map mid m1) as [|x l IH]; [constructor|]. inversion ND; subst. constructor; [|auto]. intros I. apply H1. apply in_or_app. now left. }
    assert (X : forall t u v, str_ p = t ++ LateModel.TGot k (VInt i) req cs names :: u ++ LateModel.TGot k' (VInt i) req' cs' names' :: v \/
                              str_ p = t ++ LateModel.TGot k' (VInt i) req' cs' names' :: u ++ LateModel.TGot k (VInt i) req cs names :: v -> False).
    { intros t u v H. assert (Y : exists o o' z y y', taken (str_ p) = taken t ++ o :: taken u ++ o' :: z /\ o = OMessage 0x10 (VInt i) (fst y) (snd y) /\ o' = OMessage 0x10 (VInt i) (fst y') (snd y')).
      { destruct H as [H|H]; rewrite H, taken_app; cbn [taken flat_map takes app]; fold (taken (u ++ LateModel.TGot k' (VInt i) req' cs' names' :: v)); fold (taken (u ++ LateModel.TGot k (VInt i) req cs names :: v)); rewrite taken_app; cbn [taken flat_map takes app];
        [exists (OMessage 0x10 (VInt i) req cs), (OMessage 0x10 (VInt i) req' cs'), (taken v), (req, cs), (req', cs')|exists (OMessage 0x10 (VInt i) req' cs'), (OMessage 0x10 (VInt i) req cs), (taken v), (req', cs'), (req, cs)]; auto. }
      destruct Y as (o & o' & z & y & y' & T & -> & ->). rewrite T in R. clear T H.
      rewrite map_app in R. symmetry in R. apply map_eq_app in R as (n1 & n2 & -> & _ & R). cbn [map] in R.
      destruct n2 as [|a n2]; [discriminate|]. cbn [map] in R. injection R as Ra R. rewrite map_app in R. apply map_eq_app in R as (n3 & n4 & -> & _ & R).
      destruct n4 as [|b n4]; [discriminate|]. cbn [map] in R. injection R as Rb _. unfold as_read in Ra, Rb. symmetry in Ra, Rb.
      assert (Ea : i = mid a) by (revert Ra; clear; intros Ra; repeat match type of Ra with match ?x with _ => _ end = _ => destruct x end; congruence).
      assert (Eb : i = mid b) by (revert Rb; clear; intros Rb; repeat match type of Rb with match ?x with _ => _ end = _ => destruct x end; congruence).
      rewrite map_app in ND1. cbn [map] in ND1. rewrite map_app in ND1. cbn [map] in ND1. rewrite <- Ea, <- Eb in ND1.
      apply NoDup_remove_2 in ND1. apply ND1. apply in_or_app. right. apply in_or_app. right. now left. }
    unfold came in A, B. apply in_split in A as (t & u & A). rewrite A in B. apply in_app_or in B as [B|[B|B]].
    - apply in_split in B as (t1 & t2 & B). exfalso. apply (X t1 t2 u). right. rewrite A, B, <- app_assoc. reflexivity.
    - now injection B.
    - apply in_split in B as (t1 & t2 & B). exfalso. apply (X t t1 t2). left. rewrite A, B. reflexivity.
  Qed.
  Lemma results_snoc k a e b : result_in k e <> [] -> results k (a ++ e :: b) <> [].
  Proof. intros N E. unfold results in E. rewrite flat_map_app in E. apply app_eq_nil in E as (_ & E). cbn [flat_map] in E. now apply app_eq_nil in E as (E & _). Qed.
  (** After the result of a request the server says nothing more for it *)
  Lemma one_last p ces les ms a b c i k1 op1 w1 k2 op2 w2 : PI p ces les ms -> tidy srun les ->
    str_ p = a ++ TWrite k1 (VInt i) op1 w1 :: b ++ TWrite k2 (VInt i) op2 w2 :: c -> is_entry op1.
  Proof.
    intros P TI E. pose proof (run_inv lower io oc_first text root IO True les (fun _ => TI)) as V. rewrite <- (pi_s _ _ _ _ _ _ _ _ _ _ _ _ _ P) in V.
    assert (E2 : str_ p = (a ++ TWrite k1 (VInt i) op1 w1 :: b) ++ TWrite k2 (VInt i) op2 w2 :: c) by (rewrite <- app_assoc; exact E).
    pose proof (i_wr _ _ _ _ _ _ _ V _ _ _ E) as (_ & _ & r1 & c1 & n1 & C1 & _). pose proof (i_wr _ _ _ _ _ _ _ V _ _ _ E2) as (_ & _ & r2 & c2 & n2 & C2 & X).
    assert (k1 = k2). { eapply (came_k p ces les ms i); [exact P| |]; unfold came in *; [rewrite E|rewrite E2]; apply in_or_app; left; eassumption. }
    subst k2. assert (D : is_entry op1 \/ ~ is_entry op1) by (destruct op1; cbn; tauto). destruct D as [D|D]; [exact D|exfalso].
    assert (RN : results k1 (a ++ TWrite k1 (VInt i) op1 w1 :: b) <> []).
    { apply results_snoc. cbn [result_in]. rewrite Nat.eqb_refl. destruct op1; try discriminate. now destruct D. }
    destruct X as [(X & _)|(_ & _ & X)]; [|auto]. pose proof (i_first _ _ _ _ _ _ _ V Logic.I _ _ _ E2) as F. cbn in F. destruct op2; now destruct X.
  Qed.
  Lemma entry_read v r : read_response v = Some (seen_response r) -> is_entry v <-> is_entry (response_obj r).
  Proof.
    intros H. destruct v as [| | | | | | | | | | | |tag us|k tag c d m sc|tag c d m n rv| |tag dn ats| | | | |]; try discriminate; cbn [read_response] in H.
    - destruct (all_some _); [|discriminate]. destruct r as [? [[|]|]| | | | | | | | |]; cbn in H |- *; try discriminate; tauto.
    - destruct (rd_result c d m) as [x|]; [|destruct k; discriminate]. destruct k; try discriminate; cbn [option_map opt2] in H; try destruct (rd_opt rd_bytes sc); try discriminate;
        destruct r as [? [[|]|]| | | | | | | | |]; cbn in H |- *; try discriminate; tauto.
    - destruct (rd_result c d m) as [x|]; [|discriminate]. destruct (rd_opt rd_bytes n); [|discriminate]. destruct (rd_opt rd_bytes rv); [|discriminate].
      destruct r as [? [[|]|]| | | | | | | | |]; cbn in H |- *; try discriminate; tauto.
    - destruct (rd_bytes _); [|discriminate]. destruct (all_some _); [|discriminate]. destruct r as [? [[|]|]| | | | | | | | |]; cbn in H |- *; try discriminate; tauto.
  Qed.
  Lemma hears_fun s w g g' : hears s w g -> hears s w g' -> g = g'.
  Proof. intros (o & R & _ & (t & i & v & c & -> & _ & ->) & _) (o' & R' & _ & (t' & i' & v' & c' & -> & _ & ->) & _). pose proof (reads_fun _ _ _ _ R R') as E. now injection E as -> -> -> ->. Qed.
  Lemma hears_funs s w g g' : Forall2 (hears s) w g -> Forall2 (hears s) w g' -> g = g'.
  Proof. intros F. revert g'. induction F as [|w x ws xs H F IH]; intros g' G; inversion G; subst; [reflexivity|]. f_equal; [eapply hears_fun; eauto|auto]. Qed.
  (** The messages that the server wrote, with their requests *)
  Definition wrote_in (e : tev) : list (nat * pv * obj * bytes) := match e with TWrite k id op b => [(k, id, op, b)] | _ => [] end.
  Lemma sw_wrote t : flat_map (fun e => match e with TWrite _ _ _ b => [b] | _ => [] end) t = map snd (flat_map wrote_in t).
  Proof. induction t as [|e t IH]; [reflexivity|]. cbn [flat_map]. rewrite map_app, <- IH. now destruct e. Qed.
  Lemma wrote_at t : forall l1 k id op b l2, flat_map wrote_in t = l1 ++ (k, id, op, b) :: l2 -> exists a c, t = a ++ TWrite k id op b :: c /\ flat_map wrote_in c = l2.
  Proof.
    induction t as [|e t IH]; intros l1 k id op b l2 E; [now destruct l1|]. cbn [flat_map] in E.
    assert (X : wrote_in e = [] \/ exists x, wrote_in e = [x] /\ let '(k, id, op, b) := x in e = TWrite k id op b) by (destruct e; cbn; auto; right; eexists; split; reflexivity).
    destruct X as [X|([[[k' id'] op'] b'] & X & ->)]; rewrite X in E.
    - destruct (IH _ _ _ _ _ _ E) as (a & c & -> & H). exists (e :: a), c. auto.
    - destruct l1 as [|y l1]; cbn [app] in E.
      + injection E as -> -> -> -> E. exists [], t. auto.
      + injection E as _ E. destruct (IH _ _ _ _ _ _ E) as (a & c & -> & H). exists (TWrite k' id' op' b' :: a), c. auto.
  Qed.
  (** A message that the server wrote, as the client reads it *)
  Definition wrote_hears (c : cstate) (e : nat * pv * obj * bytes) (g : Z * obj * option (list (pv * pv * pv))) : Prop :=
    let '(k, id, op, b) := e in hears c b g /\ id = VInt (fst (fst g)) /\ (is_entry (snd (fst g)) <-> is_entry op).
  Lemma wrote_heard p ces les ms : PI p ces les ms -> exists gs, Forall2 (wrote_hears (p_client p)) (flat_map wrote_in (str_ p)) gs.
  Proof.
    intros P. apply F_F2. apply Forall_forall. intros x I. apply in_flat_map in I as (e & J & H).
    destruct e; try now destruct H. destruct H as [<-|[]]. destruct (write_meant reps choose verdict lower io oc_first text root next IO _ _ _ _ _ _ _ _ P J) as (m & r & I & -> & -> & W).
    destruct (meant_heard verdict _ _ _ _ _ (pi_ci _ _ _ _ _ _ _ _ _ _ _ _ _ P) I W) as (g & G & G1 & G2). exists g. cbn [wrote_hears]. split; [exact G|]. split; [now rewrite G1|]. now apply entry_read.
  Qed.
  Lemma wrote_good p ces les ms gs : PI p ces les ms -> tidy srun les -> MI (p_client p) -> Forall2 (wrote_hears (p_client p)) (flat_map wrote_in (str_ p)) gs -> good_seq (ctr p) gs.
  Proof.
    intros P TI M F. split.
    - intros l1 i v c l2 v' c' l3 ->. apply Forall2_app_inv_r in F as (x1 & x2 & _ & F3 & E). inversion F3 as [|[[[k1 id1] op1] b1] ? y1 ? H1 F1]; subst.
      apply Forall2_app_inv_r in F1 as (x3 & x4 & _ & F2 & ->). inversion F2 as [|[[[k2 id2] op2] b2] ? y2 ? H2 _]; subst.
      destruct H1 as (_ & -> & H1). destruct H2 as (_ & -> & _). cbn [fst snd] in *. apply H1.
      destruct (wrote_at _ _ _ _ _ _ _ E) as (a & t & T & E'). destruct (wrote_at _ _ _ _ _ _ _ E') as (a' & t' & -> & _).
      exact (one_last _ _ _ _ _ _ _ _ _ _ _ _ _ _ P TI T).
    - intros i v c I. apply in_split in I as (l1 & l2 & ->). apply Forall2_app_inv_r in F as (x1 & x2 & _ & F3 & E). inversion F3 as [|[[[k id] op] b] ? y ? H _]; subst.
      destruct H as (_ & -> & EN). cbn [fst snd] in *. destruct (wrote_at _ _ _ _ _ _ _ E) as (a & t & T & _).
      pose proof (run_inv lower io oc_first text root IO False les (fun F => match F with end)) as V. rewrite <- (pi_s _ _ _ _ _ _ _ _ _ _ _ _ _ P) in V.
      pose proof (i_wr _ _ _ _ _ _ _ V _ _ _ T) as (_ & _ & req & cs & names & C & X).
      assert (C' : came (str_ p) k (VInt i) req cs names) by (unfold came in *; rewrite T; apply in_or_app; now left).
      destruct (came_meant reps choose verdict lower io oc_first text root next p ces les ms _ _ _ _ _ P C') as ([[i' q] cs'] & J & EI & Y). injection EI as EI. cbn [mid fst] in EI. subst i'.
      apply read_message_inv in Y as (tag & op0 & cs2 & Y & RQ). injection Y as _ <- _. cbn [fst snd] in RQ.
      pose proof (pi_ci _ _ _ _ _ _ _ _ _ _ _ _ _ P) as CC.
      assert (IP : 0 < i < c_next (p_client p)) by (apply (ci_ids _ _ _ CC); apply in_map_iff; exists (i, q, cs'); auto).
      assert (NU : q <> Unbind).
      { intros ->. assert (U : exists t, req = ONull KUnbind t) by now apply read_unbind.
        destruct U as (t0 & ->). destruct X as [(_ & X)|(_ & X & _)]; [destruct X as (? & ? & ? & ? & ? & ? & ? & ? & ? & X & _); discriminate|].
        destruct X as [X|((? & ? & X) & _)]; [destruct X|discriminate]. }
      assert (SI : In i (sents (ctr p))) by (destruct (meant_sent _ _ _ _ _ P M J) as [U|U]; [now destruct NU|exact U]).
      split; [lia|]. split; [exact SI|]. intros VE. apply EN in VE. destruct X as [(_ & X)|(X & _)]; [|contradiction].
      destruct X as (t0 & b0 & sc & dr & sz & tm & ty & fl & at0 & -> & _).
      apply sent_in in SI as (op1 & tls & S1). exists op1, tls. split; [exact S1|].
      destruct (ci_sent _ _ _ CC _ _ _ S1) as (_ & q1 & -> & [(cs1 & J1)|(N & _)]).
      2:{ destruct N. apply in_map_iff. exists (i, q, cs'). auto. }
      pose proof (mid_unique ms i q q1 cs' cs1 (ci_nd _ _ _ CC) J J1) as MU. injection MU as -> _.
      exact (read_search _ _ _ _ _ _ _ _ _ _ RQ).
  Qed.
  (** Bytes that come raise nothing *)
  Lemma down_calm p ces les ms n : PI p ces les ms -> tidy srun les -> MI (p_client p) -> c_connected (p_client p) = Some true -> MI (p_client (pstep p (PDown n))).
  Proof.
    intros P TI M CC. cbn [PairModel.pstep]. rewrite CC. set (seg := segment n (p_down p) (server_writes (p_server p))).
    destruct (pi_down _ _ _ _ _ _ _ _ _ _ _ _ _ P) as (w1 & w2 & E1 & E2 & E3 & E4 & _).
    destruct (wrote_heard _ _ _ _ P) as (gs & G). pose proof (wrote_good _ _ _ _ _ P TI M G) as GS.
    assert (H : Forall2 (hears (p_client p)) (server_writes (p_server p)) gs).
    { unfold server_writes. rewrite sw_wrote. clear - G. induction G as [|[[[k id] op] b] g l gs H G IH]; cbn [map snd]; constructor; [apply H|exact IH]. }
    rewrite E1 in H. destruct (Forall2_app_inv_l _ _ H) as (g1 & g2 & H1 & H2 & ->). rewrite (hears_funs _ _ _ _ H1 E4) in GS. clear g1 G H H1.
    pose proof (rest_eq _ _ _ _ (concat w2) E3 ltac:(rewrite E1; apply concat_app)) as R.
    assert (GD : Good (p_client p)) by (rewrite (pi_c _ _ _ _ _ _ _ _ _ _ _ _ _ P); now apply run_ok).
    pose proof (pi_ci _ _ _ _ _ _ _ _ _ _ _ _ _ P) as C.
    set (s := p_client p) in *. cbn [to_client p_client ClientModel.step]. unfold ClientModel.dataReceived. set (s1 := set_buffer (c_buffer s ++ seg) s).
    eapply (recv_good reps choose verdict law mild tells) with (x := skipn n (skipn (p_down p) (concat (server_writes (p_server p))))) (ws := w2) (ms := g2) (cms := ms).
    - cbn. lia.
    - clear - H2. induction H2; constructor; auto.
    - unfold s1. cbn [c_buffer set_buffer]. rewrite <- app_assoc. rewrite <- R. f_equal. unfold seg, segment. apply firstn_skipn.
    - destruct GD as (V & A & B). split; [|split; [exact A|exact B]]. now apply inv_buffer.
    - revert M. apply mk_state; [reflexivity|apply Z.le_refl|auto].
    - destruct C as [C1 C2 C3 C4 C5 C6 C7 C8]. constructor; assumption.
    - exact CC.
    - exact GS.
  Qed.
  Lemma calm_step p ces les ms e : PI p ces les ms -> tidy srun les -> MI (p_client p) -> lawful_event e -> modest_event e -> MI (p_client (pstep p e)).
  Proof.
    intros P TI M L D. assert (S1 : forall ev, (forall b, ev <> EData b) -> match ev with EUser a => lawful a /\ modest a | _ => True end -> MI (ClientModel.step reps choose verdict (p_client p) ev)).
    { intros ev N X. revert M. now apply (mk_step reps choose verdict law mild). }
    destruct e as [|a| |n|n|names|n|n r names|n x| |]; try (cbn [PairModel.pstep to_client to_server p_client]; first [exact M|apply S1; [discriminate|exact Logic.I]]).
    - apply S1; [discriminate|now split].
    - cbn [PairModel.pstep]. now destruct (l_conn (p_server p)).
    - cbn [PairModel.pstep]. destruct (l_conn (p_server p)); try exact M. destruct (decode _ _) as [[[o|] k]|]; exact M.
    - destruct (c_connected (p_client p)) as [[]|] eqn:C; [eapply down_calm; eauto| |]; cbn [PairModel.pstep]; rewrite C; exact M.
  Qed.
  Lemma calm_run es : Forall lawful_event es -> Forall modest_event es -> tidy_directory prun es ->
    exists ces les ms, PI (prun es) ces les ms /\ tidy srun les /\ MI (p_client (prun es)).
  Proof.
    induction es as [|e es IH] using rev_ind; intros L D T.
    - exists [], [], []. split; [now apply pi_0|]. split; [intros a n x b E; now destruct a|]. apply mi_0.
    - apply Forall_app in L as (L & L1). apply Forall_app in D as (D & D1). inversion L1; subst. inversion D1; subst.
      destruct IH as (ces & les & ms & P & TI & M); auto. { intros a n x b E. apply (T a n x (b ++ [e])). now rewrite E, <- app_assoc. }
      assert (ST : prun (es ++ [e]) = pstep (prun es) e) by (unfold PairModel.prun; now rewrite fold_left_app). rewrite ST.
      destruct (pair_step reps choose verdict lower io oc_first text root next law IO _ _ _ _ e P) as (ces' & les' & r & P1 & SH); [assumption|].
      exists (ces ++ ces'), (les ++ les'), (ms ++ r). split; [exact P1|]. split; [|eapply calm_step; eauto].
      destruct SH as [->|(le & -> & SH)]; [now rewrite app_nil_r|]. intros a n x b E. destruct b as [|y b] using rev_ind.
      + apply app_inj_tail in E as (<- & E). specialize (SH _ _ E). subst e. rewrite <- (pi_s _ _ _ _ _ _ _ _ _ _ _ _ _ P). now apply (T es n x []).
      + clear IHb. assert (E' : les ++ [le] = (a ++ EEntry n x :: b) ++ [y]) by (rewrite E, <- app_assoc; reflexivity). apply app_inj_tail in E' as (-> & _). now apply (TI a n x b).
  Qed.
  Lemma no_errors es x : Forall lawful_event es -> Forall modest_event es -> tidy_directory prun es -> ~ In (TError x) (ctr (prun es)).
  Proof. intros L D T I. destruct (calm_run es L D T) as (_ & _ & _ & _ & _ & M). apply (mi_err _ M). now exists x. Qed.
  Lemma last_verdict t i v : last_got t i v -> ~ is_entry v -> verdict t = Ok true.
  Proof.
    intros (a & b & c & E & N) NE. rewrite (tells t a i v c b E); [|now apply got_none]. destruct v; try reflexivity. now destruct NE.
  Qed.
End Calm.
