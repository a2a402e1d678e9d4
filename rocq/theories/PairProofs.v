(** Client and server together: what is on its way, and what has come. *)
From Verif Require Import Base BaseFacts BerModel BerSpec BerProofs LdapModel LdapSpec LdapProofs StreamModel StreamSpec StreamProofs DnModel EntryModel ServerModel ServerSpec
  ClientModel ClientSpec ClientProofs ClientStream LateModel LateSpec LateProofs PairModel PairSpec PairClient PairServer.

Lemma F2_split {A B} (P : A -> B -> Prop) a b c d : Forall2 P (a ++ b) (c ++ d) -> length a = length c -> Forall2 P a c /\ Forall2 P b d.
Proof.
  revert c. induction a as [|x a IH]; intros [|y c] F L; try discriminate; [split; [constructor|exact F]|].
  inversion F; subst. destruct (IH c) as (G & H); auto.
Qed.
Lemma F_F2 {A B} (P : A -> B -> Prop) l : Forall (fun a => exists b, P a b) l -> exists m, Forall2 P l m.
Proof. induction 1 as [|a l (b & H) F (m & IH)]; [exists []; constructor|exists (b :: m); now constructor]. Qed.
(** The first bytes stay the first *)
Lemma firstn_more (n : nat) (a b : bytes) : (n <= length a)%nat -> firstn n (a ++ b) = firstn n a.
Proof. intros L. rewrite firstn_app. replace (n - length a)%nat with O by lia. cbn. apply app_nil_r. Qed.
Lemma firstn_next (n : nat) (l : bytes) k : firstn (n + length (firstn k (skipn n l))) l = firstn n l ++ firstn k (skipn n l).
Proof.
  revert l. induction n as [|n IH]; intros l; cbn [plus skipn firstn app].
  - rewrite firstn_length. destruct (Nat.le_ge_cases k (length l)) as [G|G]; [now rewrite Nat.min_l|].
    rewrite Nat.min_r, firstn_all, firstn_all2; auto.
  - destruct l as [|x l]; [now rewrite firstn_nil|]. cbn [app]. now rewrite IH.
Qed.

Section Pair.
  Variable reps : list ClientModel.tev -> nat.
  Variable choose : list ClientModel.tev -> option useract.
  Variable verdict : list ClientModel.tev -> res bool.
  Variable lower : str -> str.
  Variable io : Z -> Z -> res Z.
  Variable oc_first : bool.
  Variable text : exn -> bytes.
  Variable root : ent.
  Variable next : Z.
  Hypothesis law : lawful_user choose.
  Hypothesis IO : forall a b c, io a b <> Err (ELdap c).
  Hypothesis pos : 0 < next.
  Local Notation cstep := (ClientModel.step reps choose verdict).
  Local Notation crun := (ClientModel.run reps choose verdict next).
  Local Notation sstep := (lstep lower io oc_first text root).
  Local Notation srun := (lrun lower io oc_first text root).
  Local Notation prun := (PairModel.prun reps choose verdict lower io oc_first text root next).
  Local Notation pstep := (PairModel.pstep reps choose verdict lower io oc_first text root).
  Local Notation to_c := (to_client reps choose verdict).
  Local Notation to_s := (to_server lower io oc_first text root).

  Definition up_ok (p : pair) (ms : list meant) : Prop := let C := concat (client_writes (p_client p)) in
    exists m1 m2 w1 w2, ms = m1 ++ m2 /\ client_writes (p_client p) = w1 ++ w2 /\ length m1 = length w1 /\ (p_up p <= length C)%nat /\
      firstn (p_up p) C = concat w1 ++ p_buffer p /\ map (read_message read_request) (taken (l_trace (p_server p))) = map as_read m1.
  Definition down_ok (p : pair) : Prop := let C := concat (server_writes (p_server p)) in
    exists w1 w2, server_writes (p_server p) = w1 ++ w2 /\ (p_down p <= length C)%nat /\
      firstn (p_down p) C = concat w1 ++ c_buffer (p_client p) /\ Forall2 (hears (p_client p)) w1 (gots (c_trace (p_client p))) /\
      (failed (c_trace (p_client p)) \/ waiting (c_buffer (p_client p)) w2).
  Record PI (p : pair) (ces : list cevent) (les : list levent) (ms : list meant) : Prop := mkPI {
    pi_c : p_client p = crun ces;
    pi_s : p_server p = srun les;
    pi_ci : CI verdict (p_client p) ms;
    pi_up : up_ok p ms;
    pi_fits : Forall fits (l_trace (p_server p));
    pi_down : down_ok p }.

  Lemma pi_0 : PI (pair_0 next) [] [] [].
  Proof.
    constructor; try reflexivity.
    - now apply ci_0.
    - exists [], [], [], []. cbn. repeat split; auto with arith.
    - constructor.
    - exists [], []. cbn. do 3 (split; [auto with arith|]). split; [constructor|now right].
  Qed.
  Lemma read_in o (ms : list meant) t : In o t -> map (read_message read_request) t = map as_read ms -> exists m, In m ms /\ read_message read_request o = as_read m.
  Proof.
    intros I. revert ms. induction t as [|x t IH]; intros [|y ms] E; try discriminate; [destruct I|].
    cbn [map] in E. injection E as E1 E2. destruct I as [->|I]; [exists y; split; [now left|exact E1]|].
    destruct (IH I ms E2) as (m' & J & H). exists m'. split; [now right|exact H].
  Qed.
  Lemma read_message_inv {A} (f : obj -> option A) o i a cs : read_message f o = Some (i, a, cs) ->
    exists tag op cs', o = OMessage tag (VInt i) op cs' /\ f op = Some a.
  Proof.
    destruct o; try discriminate. cbn [read_message]. destruct id as [|z|]; try discriminate. cbn [rd_int].
    destruct (f o) as [a'|] eqn:E; [|discriminate]. destruct (match controls with None => _ | Some _ => _ end); [|discriminate].
    intros X. injection X as <- <- <-. eauto.
  Qed.
  Lemma read_kind req q : read_request req = Some q -> kind_of req <> None.
  Proof. destruct req; cbn; try discriminate; try (destruct k; discriminate). Qed.
  Lemma came_meant p ces les ms k id req cs names : PI p ces les ms -> came (l_trace (p_server p)) k id req cs names ->
    exists m, In m ms /\ id = VInt (mid m) /\ read_message read_request (OMessage 0x10 id req cs) = as_read m.
  Proof.
    intros P C. destruct (pi_up _ _ _ _ P) as (m1 & m2 & w1 & w2 & -> & _ & _ & _ & _ & R).
    assert (I : In (OMessage 0x10 id req cs) (taken (l_trace (p_server p)))) by (apply taken_came; eauto).
    destruct (read_in _ _ _ I R) as (m & J & H). exists m. split; [apply in_or_app; now left|]. split; [|exact H].
    apply read_message_inv in H as (tag & op & cs' & H & _). now injection H.
  Qed.
  (** What the server writes is heard as a response under the id of a request that was written *)
  Lemma write_meant p ces les ms k id op b : PI p ces les ms -> In (TWrite k id op b) (l_trace (p_server p)) ->
    exists m r, In m ms /\ id = VInt (mid m) /\ op = response_obj r /\ toWire (message_obj (mid m) (response_obj r) None) = Ok b.
  Proof.
    intros P J. pose proof (run_inv lower io oc_first text root IO False les (fun F => match F with end)) as V. rewrite <- (pi_s _ _ _ _ P) in V.
    pose proof J as J0. apply in_split in J as (a & c & E). pose proof (i_wr _ _ _ _ _ _ _ V a _ c E) as (_ & W & req & cs & names & C & _).
    destruct (came_meant p ces les ms k id req cs names P) as (m & I & -> & _).
    { unfold came in *. rewrite E. apply in_or_app. now left. }
    pose proof (proj1 (Forall_forall _ _) (pi_fits _ _ _ _ P) _ J0) as S0. cbn in S0.
    destruct (message_part _ _ _ _ W) as (x & X). destruct (shaped_response op x S0 X) as (r & ->). exists m, r. auto.
  Qed.
  Lemma meant_heard c ms m r b : CI verdict c ms -> In m ms -> toWire (message_obj (mid m) (response_obj r) None) = Ok b ->
    exists g, hears c b g /\ fst (fst g) = mid m /\ read_response (snd (fst g)) = Some (seen_response r).
  Proof.
    intros V I W. destruct (response_message_seen _ _ _ _ W) as (o & R & Q & O).
    destruct (read_message_inv _ _ _ _ _ Q) as (tag & op & cs & -> & Q'). exists (mid m, op, cs). cbn [fst snd]. split; [|auto].
    exists (OMessage tag (VInt (mid m)) op cs). split; [exact R|]. split; [eapply client_check_ok; eauto|]. cbn [fst]. split.
    - exists tag, (mid m), op, cs. split; [reflexivity|]. split; [|reflexivity]. destruct op; cbn in Q' |- *; try discriminate; reflexivity.
    - apply (ci_ids _ _ _ V). apply in_map_iff. eauto.
  Qed.
  Lemma writes_heard p ces les ms : PI p ces les ms -> exists gs, Forall2 (hears (p_client p)) (server_writes (p_server p)) gs.
  Proof.
    intros P. apply F_F2. apply Forall_forall. intros w I. unfold server_writes in I. apply in_flat_map in I as (e & J & H).
    destruct e; try now destruct H. destruct H as [->|[]]. destruct (write_meant _ _ _ _ _ _ _ _ P J) as (m & r & I & _ & _ & W).
    destruct (meant_heard _ _ _ _ _ (pi_ci _ _ _ _ P) I W) as (g & G & _). eauto.
  Qed.

  (** The client moves on, and the server does *)
  Lemma ctrace_more s e : exists r, c_trace (cstep s e) = c_trace s ++ r.
  Proof. destruct (sext_step reps choose verdict s e) as (r & E & _). eauto. Qed.
  Lemma run_c ces e : cstep (crun ces) e = crun (ces ++ [e]). Proof. unfold ClientModel.run. now rewrite fold_left_app. Qed.
  Lemma up_mono p p' ms r : up_ok p ms -> (exists t, c_trace (p_client p') = c_trace (p_client p) ++ t) ->
    taken (l_trace (p_server p')) = taken (l_trace (p_server p)) -> p_buffer p' = p_buffer p -> p_up p' = p_up p -> up_ok p' (ms ++ r).
  Proof.
    intros (m1 & m2 & w1 & w2 & E1 & E2 & E3 & E4 & E5 & E6) (t & T) K B U. unfold up_ok, client_writes in *. cbv zeta in *.
    exists m1, (m2 ++ r), w1, (w2 ++ writes_of t). rewrite T, B, U, K. fold (writes_of (c_trace (p_client p) ++ t)). fold (writes_of (c_trace (p_client p))) in *.
    rewrite writes_app, E1, E2, !app_assoc. split; [reflexivity|]. split; [reflexivity|]. split; [exact E3|]. rewrite E2 in E4, E5. rewrite (concat_app (w1 ++ w2)).
    split; [rewrite app_length; lia|]. split; [rewrite firstn_more; [exact E5|exact E4]|exact E6].
  Qed.
  Lemma waiting_app b w r : waiting b w -> Forall (fun x => x <> []) r -> waiting b (w ++ r).
  Proof. destruct w as [|x w]; cbn; [|auto]. intros -> F. destruct F as [|y r H F]; [reflexivity|]. destruct y; [congruence|]. cbn. lia. Qed.
  Lemma down_same p p' : down_ok p -> c_buffer (p_client p') = c_buffer (p_client p) -> gots (c_trace (p_client p')) = gots (c_trace (p_client p)) ->
    (exists t, c_trace (p_client p') = c_trace (p_client p) ++ t) -> c_next (p_client p) <= c_next (p_client p') -> p_down p' = p_down p ->
    (exists r, server_writes (p_server p') = server_writes (p_server p) ++ r /\ Forall (fun x => x <> []) r) -> down_ok p'.
  Proof.
    intros (w1 & w2 & E1 & E2 & E3 & E4 & E5) B G (t & T) N D (r & R & RN). unfold down_ok. cbv zeta in *.
    exists w1, (w2 ++ r). rewrite R, B, D, G. rewrite concat_app, E1 in *. rewrite app_assoc. split; [reflexivity|]. split; [rewrite app_length; lia|].
    split; [rewrite firstn_more; [exact E3|exact E2]|]. split.
    - clear - E4 N. induction E4; constructor; auto. eapply hears_mono; eauto.
    - destruct E5 as [(e & E5)|E5]; [left; exists e; rewrite T; apply in_or_app; now left|right; now apply waiting_app].
  Qed.
  Lemma client_moves p ces les ms e : PI p ces les ms -> (forall b, e <> EData b) -> match e with EUser a => lawful a | _ => True end ->
    exists r, PI (to_c e p) (ces ++ [e]) les (ms ++ r).
  Proof.
    intros P N L. destruct (keeps_step reps choose verdict law (p_client p) e N L) as (NX & K). destruct (K ms (pi_ci _ _ _ _ P)) as (r & CI').
    exists r. pose proof (quiet_step reps choose verdict (p_client p) e N) as (Q1 & Q2). pose proof (ctrace_more (p_client p) e) as T.
    constructor; cbn [to_client p_client p_server p_buffer p_up p_down].
    - rewrite (pi_c _ _ _ _ P). apply run_c.
    - apply (pi_s _ _ _ _ P).
    - exact CI'.
    - apply (up_mono p); auto. apply (pi_up _ _ _ _ P).
    - apply (pi_fits _ _ _ _ P).
    - apply (down_same p); auto. { apply (pi_down _ _ _ _ P). } exists []. rewrite app_nil_r. split; [reflexivity|constructor].
  Qed.
  Lemma sw_more s s' r : l_trace s' = l_trace s ++ r -> server_writes s' = server_writes s ++ flat_map (fun e => match e with TWrite _ _ _ b => [b] | _ => [] end) r.
  Proof. intros E. unfold server_writes. rewrite E. apply flat_map_app. Qed.
  Lemma server_adds p ces les ms e buf ms' r : PI p ces les ms -> l_trace (sstep (p_server p) e) = l_trace (p_server p) ++ r -> Forall fits r ->
    up_ok (mkPair (p_client p) (sstep (p_server p) e) buf (p_up p) (p_down p)) ms' -> ms' = ms ->
    PI (mkPair (p_client p) (sstep (p_server p) e) buf (p_up p) (p_down p)) ces (les ++ [e]) ms.
  Proof.
    intros P T F U ->.
    assert (S1 : sstep (p_server p) e = srun (les ++ [e])) by (rewrite run_snoc, <- (pi_s _ _ _ _ P); reflexivity).
    assert (FT : Forall fits (l_trace (sstep (p_server p) e))) by (rewrite T; apply Forall_app; split; [apply (pi_fits _ _ _ _ P)|exact F]).
    set (p' := mkPair (p_client p) (sstep (p_server p) e) buf (p_up p) (p_down p)) in *.
    constructor; auto.
    - apply (pi_c _ _ _ _ P).
    - apply (pi_ci _ _ _ _ P).
    - apply (down_same p p' (pi_down _ _ _ _ P) eq_refl eq_refl); [exists []; now rewrite app_nil_r|apply Z.le_refl|reflexivity|].
      eexists. split; [apply sw_more, T|]. apply Forall_forall. intros w I. apply in_flat_map in I as (x & J & H). destruct x; try now destruct H. destruct H as [->|[]].
      pose proof (run_inv lower io oc_first text root IO False (les ++ [e]) (fun F => match F with end)) as V. rewrite <- S1 in V.
      assert (J' : In (TWrite k id op w) (l_trace (sstep (p_server p) e))) by (rewrite T; apply in_or_app; now right).
      apply in_split in J' as (a & c & E). pose proof (i_wr _ _ _ _ _ _ _ V a _ c E) as (_ & W & _). intros ->.
      cbn [toWire] in W. apply w_seq_inv in W as (ps & _ & W). now apply tlv_nonempty in W.
  Qed.
  Lemma server_moves p ces les ms e : PI p ces les ms -> (forall m names, e <> EMessage m names) -> PI (to_s e p) ces (les ++ [e]) ms.
  Proof.
    intros P N. destruct (step_adds lower io oc_first text root (p_server p) e N) as (r & T & K & F).
    eapply server_adds; eauto. rewrite <- (app_nil_r ms). apply (up_mono p); auto.
    - apply (pi_up _ _ _ _ P).
    - exists []. now rewrite app_nil_r.
    - cbn [p_server]. now rewrite T, taken_app, K, app_nil_r.
  Qed.

  (** Bytes come to the server *)
  Lemma rest_eq (n : nat) (C a b c : bytes) : firstn n C = a ++ b -> C = a ++ c -> b ++ skipn n C = c.
  Proof. intros E F. rewrite <- (firstn_skipn n C), E, <- app_assoc in F. now apply app_inv_head in F. Qed.
  Lemma seg_len n (k : nat) (C : bytes) : (k <= length C)%nat -> (k + length (firstn n (skipn k C)) <= length C)%nat.
  Proof. intros L. rewrite firstn_length, skipn_length. lia. Qed.
  Lemma up_moves p ces les ms n : PI p ces les ms ->
    PI (mkPair (p_client p) (p_server p) (p_buffer p ++ segment n (p_up p) (client_writes (p_client p))) (p_up p + length (segment n (p_up p) (client_writes (p_client p)))) (p_down p)) ces les ms.
  Proof.
    intros P. set (p' := mkPair _ _ _ _ _). constructor; try apply P.
    destruct (pi_up _ _ _ _ P) as (m1 & m2 & w1 & w2 & E1 & E2 & E3 & E4 & E5 & E6). exists m1, m2, w1, w2. unfold p'. cbn [p_client p_server p_buffer p_up].
    split; [exact E1|]. split; [exact E2|]. split; [exact E3|]. unfold segment. split; [now apply seg_len|]. split; [|exact E6].
    rewrite firstn_next, E5. now rewrite app_assoc.
  Qed.
  (** The server takes a message *)
  Lemma take_moves p ces les ms names : PI p ces les ms -> l_conn (p_server p) = CUp ->
    exists les', PI (pstep p (PTake names)) ces (les ++ les') ms /\ (decode ctx_top (p_buffer p) <> Err EInsufficient -> p_buffer p = [] \/ les' <> []) /\
      (les' = [] \/ exists m, les' = [EMessage m names]).
  Proof.
    intros P CU. cbn [PairModel.pstep]. rewrite CU. destruct (pi_up _ _ _ _ P) as (m1 & m2 & w1 & w2 & E1 & E2 & E3 & E4 & E5 & E6).
    pose proof (rest_eq _ _ _ _ (concat w2) E5 ltac:(rewrite E2; apply concat_app)) as R.
    pose proof (ci_enc _ _ _ (pi_ci _ _ _ _ P)) as F. change (writes_of (c_trace (p_client p))) with (client_writes (p_client p)) in F. rewrite E1, E2 in F.
    apply F2_split in F as (_ & F); [|exact E3].
    assert (Stay : forall x, decode ctx_top (p_buffer p) = x -> (x = Err EInsufficient \/ (x = Ok (None, 0))) -> p_buffer p = [] \/ x = Err EInsufficient ->
      exists les', PI (match decode ctx_top (p_buffer p) with
        | Ok (Some o, n) => to_s (EMessage o names) (mkPair (p_client p) (p_server p) (zdrop n (p_buffer p)) (p_up p) (p_down p))
        | Ok (None, n) => mkPair (p_client p) (p_server p) (zdrop n (p_buffer p)) (p_up p) (p_down p)
        | Err _ => p end) ces (les ++ les') ms /\ (decode ctx_top (p_buffer p) <> Err EInsufficient -> p_buffer p = [] \/ les' <> []) /\
        (les' = [] \/ exists m, les' = [EMessage m names])).
    { intros x -> X Y. exists []. rewrite app_nil_r. split; [|split; [tauto|now left]]. destruct X as [->| ->]; [exact P|].
      change (zdrop 0 (p_buffer p)) with (p_buffer p). destruct p. exact P. }
    assert (Goal2 : forall x, (exists les', PI (match x with
        | Ok (Some o, n) => to_s (EMessage o names) (mkPair (p_client p) (p_server p) (zdrop n (p_buffer p)) (p_up p) (p_down p))
        | Ok (None, n) => mkPair (p_client p) (p_server p) (zdrop n (p_buffer p)) (p_up p) (p_down p)
        | Err _ => p end) ces (les ++ les') ms /\ (x <> Err EInsufficient -> p_buffer p = [] \/ les' <> []) /\ (les' = [] \/ exists m, les' = [EMessage m names])) ->
      exists les', PI (match x with
        | Ok (o, n) => let p := mkPair (p_client p) (p_server p) (zdrop n (p_buffer p)) (p_up p) (p_down p) in match o with Some o => to_s (EMessage o names) p | None => p end
        | Err _ => p end) ces (les ++ les') ms /\ (x <> Err EInsufficient -> p_buffer p = [] \/ les' <> []) /\ (les' = [] \/ exists m, les' = [EMessage m names])).
    { intros [([o|] & n)|e] H; exact H. }
    apply Goal2. clear Goal2.
    destruct F as [|m w m2 w2 S0 F].
    - cbn in R. apply app_eq_nil in R as (B & _). apply (Stay (Ok (None, 0))); [now rewrite B|now right|now left].
    - destruct (request_message_seen _ _ _ _ S0) as (o & Rd & Q & _). cbn [concat] in R.
      assert (NE : w <> []) by (now apply element_reads, element_nonempty in Rd).
      assert (W : (exists b, p_buffer p = w ++ b) \/ exists t, w = p_buffer p ++ t /\ t <> []).
      { apply app_split in R. destruct R as (l & [(A & B)|(A & B)]); [left; eauto|]. destruct l as [|y l]; [left; exists []; now rewrite app_nil_r in *|right; exists (y :: l); split; [exact A|discriminate]]. }
      destruct W as [(b & B)|(t & B & NT)].
      + clear Stay. rewrite B, (reads_decode _ _ _ b Rd), zdrop_app. exists [EMessage o names]. split; [|split; [intros _; right; discriminate|right; eauto]].
        destruct (read_message_inv _ _ _ _ _ Q) as (tag & op & cs & -> & Q').
        assert (I0 : 0 < mid m) by (apply (ci_ids _ _ _ (pi_ci _ _ _ _ P)); rewrite E1, map_app; apply in_or_app; right; now left).
        destruct (take_adds lower io oc_first text root (p_server p) tag (mid m) op cs names CU (read_kind _ _ Q')) as (r & T & K & FI); [lia|].
        refine (server_adds p ces les ms _ b ms r P T FI _ eq_refl). exists (m1 ++ [m]), m2, (w1 ++ [w]), w2. cbn [p_client p_server p_buffer p_up].
        split; [now rewrite <- app_assoc|]. split; [now rewrite <- app_assoc|]. split; [rewrite !app_length; cbn; lia|]. split; [exact E4|].
        split; [rewrite E5, B, concat_app; cbn [concat]; now rewrite app_nil_r, <- app_assoc|].
        rewrite T, taken_app, K, !map_app, E6. cbn [map]. change (read_message read_request (OMessage 16 (VInt (mid m)) op cs)) with (read_message read_request (OMessage tag (VInt (mid m)) op cs)). now rewrite Q.
      + destruct (p_buffer p) as [|y l] eqn:BE.
        * apply (Stay (Ok (None, 0))); auto.
        * apply (Stay (Err EInsufficient)); auto. eapply decode_prefix; eauto. discriminate.
  Qed.
  (** Bytes come to the client *)
  Lemma down_moves p ces les ms n : PI p ces les ms -> c_connected (p_client p) = Some true ->
    exists b r, PI (pstep p (PDown n)) (ces ++ [EData b]) les (ms ++ r).
  Proof.
    intros P CC. cbn [PairModel.pstep]. rewrite CC. set (seg := segment n (p_down p) (server_writes (p_server p))). exists seg.
    destruct (pi_down _ _ _ _ P) as (w1 & w2 & E1 & E2 & E3 & E4 & E5).
    destruct (writes_heard _ _ _ _ P) as (gs & G). rewrite E1 in G.
    destruct (Forall2_app_inv_l _ _ G) as (g1 & g2 & _ & G2 & _).
    pose proof (rest_eq _ _ _ _ (concat w2) E3 ltac:(rewrite E1; apply concat_app)) as R.
    set (s := p_client p) in *. cbn [to_client p_client p_server p_buffer p_up p_down ClientModel.step]. unfold ClientModel.dataReceived.
    set (s1 := set_buffer (c_buffer s ++ seg) s).
    assert (SG : seg ++ skipn n (skipn (p_down p) (concat (server_writes (p_server p)))) = skipn (p_down p) (concat (server_writes (p_server p)))) by apply firstn_skipn.
    destruct (recv_prefix reps choose verdict law (S (length (c_buffer s ++ seg))) s1 w2 g2 (skipn n (skipn (p_down p) (concat (server_writes (p_server p)))))) as ((NX & K) & a & b & h1 & h2 & A1 & A2 & A3 & A4 & A5 & A6).
    { cbn. lia. }
    { clear -G2. induction G2; constructor; auto. }
    { cbn [s1 c_buffer set_buffer]. unfold s1. cbn [c_buffer set_buffer]. rewrite <- app_assoc, SG. exact R. }
    set (s' := recv reps choose verdict (S (length (c_buffer s ++ seg))) s1) in *.
    assert (CI1 : CI verdict s1 ms).
    { destruct (keeps_state verdict s s1 eq_refl (Z.le_refl _)) as (_ & X). destruct (pi_ci _ _ _ _ P) as [C1 C2 C3 C4 C5 C6 C7 C8]. constructor; assumption. }
    destruct (K ms CI1) as (r & CI'). exists r.
    assert (TR : exists t, c_trace s' = c_trace s ++ t).
    { destruct (sext_recv reps choose verdict (S (length (c_buffer s ++ seg))) s1) as (t & T & _). exists t. exact T. }
    constructor; cbn [p_client p_server p_buffer p_up p_down].
    - rewrite <- run_c, <- (pi_c _ _ _ _ P). reflexivity.
    - apply (pi_s _ _ _ _ P).
    - exact CI'.
    - apply (up_mono p); auto. apply (pi_up _ _ _ _ P).
    - apply (pi_fits _ _ _ _ P).
    - exists (w1 ++ a), b. cbn [p_client p_server p_down]. rewrite E1, A1, app_assoc. split; [reflexivity|]. rewrite <- app_assoc, <- A1, <- E1.
      split; [now apply seg_len|]. split.
      + unfold seg, segment. rewrite firstn_next. fold (segment n (p_down p) (server_writes (p_server p))). fold seg. rewrite E3, concat_app, <- !app_assoc. f_equal.
        apply (app_inv_tail (skipn n (skipn (p_down p) (concat (server_writes (p_server p)))))). rewrite <- !app_assoc, SG, R. transitivity (concat a ++ concat b); [rewrite A1; apply concat_app|f_equal; symmetry; exact A4].
      + split; [|exact A6]. change (Forall2 (hears s') (w1 ++ a) (gots (c_trace s'))). rewrite A5. apply Forall2_app.
        * change (gots (c_trace s1)) with (gots (c_trace s)). clear - E4 NX. induction E4; constructor; auto. eapply hears_mono; [|eassumption]. exact NX.
        * rewrite A1, A2 in G2. apply F2_split in G2 as (G2 & _); [|exact A3]. clear - G2 NX. induction G2; constructor; auto. eapply hears_mono; [|eassumption]. exact NX.
  Qed.

  Lemma pair_step p ces les ms e : PI p ces les ms -> lawful_event e -> exists ces' les' r, PI (pstep p e) (ces ++ ces') (les ++ les') (ms ++ r) /\
    (les' = [] \/ exists le, les' = [le] /\ forall n x, le = EEntry n x -> e = PEntry n x).
  Proof.
    intros P L. assert (N : forall X : Prop, X -> X /\ ([] = @nil levent \/ exists le, [] = [le] /\ forall n x, le = EEntry n x -> e = PEntry n x)) by (intros X H; split; [exact H|now left]).
    assert (O : forall (X : Prop) le, (forall n x, le = EEntry n x -> e = PEntry n x) -> X -> X /\ ([le] = [] \/ exists le', [le] = [le'] /\ forall n x, le' = EEntry n x -> e = PEntry n x)).
    { intros X le E H. split; [exact H|]. right. exists le. split; [reflexivity|exact E]. }
    destruct e as [|a| |n|n|names|n|n r names|n x| |].
    - destruct (client_moves p ces les ms ClientModel.EMade P) as (r & P1); [discriminate|exact I|].
      pose proof (server_moves _ _ _ _ LateModel.EMade P1 ltac:(discriminate)) as P2. exists [ClientModel.EMade], [LateModel.EMade], r. apply O; [discriminate|exact P2].
    - destruct (client_moves p ces les ms (ClientModel.EUser a) P) as (r & P1); [discriminate|exact L|]. exists [ClientModel.EUser a], [], r. apply N. now rewrite app_nil_r.
    - destruct (client_moves p ces les ms EDue P) as (r & P1); [discriminate|exact I|]. exists [EDue], [], r. apply N. now rewrite app_nil_r.
    - destruct (client_moves p ces les ms (EOther n) P) as (r & P1); [discriminate|exact I|]. exists [EOther n], [], r. apply N. now rewrite app_nil_r.
    - exists [], [], []. apply N. rewrite !app_nil_r. cbn [PairModel.pstep]. destruct (l_conn (p_server p)); [exact P|now apply up_moves|exact P].
    - destruct (l_conn (p_server p)) eqn:C.
      2:{ destruct (take_moves p ces les ms names P C) as (les' & P1 & _ & SH). exists [], les', []. destruct SH as [->|(m & ->)]; [apply N|apply O; [discriminate|]]; now rewrite !app_nil_r in *. }
      all: exists [], [], []; apply N; rewrite !app_nil_r; cbn [PairModel.pstep]; rewrite C; exact P.
    - destruct (c_connected (p_client p)) as [[]|] eqn:C.
      1:{ destruct (down_moves p ces les ms n P C) as (b & r & P1). exists [EData b], [], r. apply N. now rewrite app_nil_r. }
      all: exists [], [], []; apply N; rewrite !app_nil_r; cbn [PairModel.pstep]; rewrite C; exact P.
    - exists [], [EFired n r names], []. apply O; [discriminate|]. rewrite !app_nil_r. apply server_moves; [exact P|discriminate].
    - exists [], [EEntry n x], []. apply O; [intros ? ? [= <- <-]; reflexivity|]. rewrite !app_nil_r. apply server_moves; [exact P|discriminate].
    - destruct (client_moves p ces les ms ClientModel.ELost P) as (r & P1); [discriminate|exact I|]. exists [ClientModel.ELost], [], r. apply N. now rewrite app_nil_r.
    - exists [], [LateModel.ELost], []. apply O; [discriminate|]. rewrite !app_nil_r. apply server_moves; [exact P|discriminate].
  Qed.
  Lemma prun_snoc es e : prun (es ++ [e]) = pstep (prun es) e. Proof. unfold PairModel.prun. now rewrite fold_left_app. Qed.
  Lemma pair_ok es : Forall lawful_event es -> exists ces les ms, PI (prun es) ces les ms.
  Proof.
    induction es as [|e es IH] using rev_ind; intros L; [exists [], [], []; exact pi_0|].
    apply Forall_app in L as (L1 & L2). inversion L2; subst. destruct (IH L1) as (ces & les & ms & P). rewrite prun_snoc.
    destruct (pair_step _ _ _ _ e P) as (c & l & r & P' & _); eauto.
  Qed.
End Pair.
