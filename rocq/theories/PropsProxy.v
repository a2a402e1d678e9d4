(** C55-C57, C76, C77, C93, C94: ProxyBase. *)
From Verif Require Import Base BaseFacts BerModel LdapModel LdapSpec LdapProofs ServerModel ClientModel ProxyModel ProxySpec ProxyProofs ProxyOrder ProxyEnd ProxyFinal ProxyTls.

(** Messages of a client and of a server *)
Definition px_msg (i : Z) (o : obj) : obj := OMessage 0x10 (VInt i) o None.
Definition px_search (b : bytes) : obj := request_obj (Search b 2 0 0 0 false (FPresent (B "objectClass")) []).
Definition px_entry (b : bytes) : obj := response_obj (SearchEntry b [(B "cn", [B "x"])]).
Definition px_done (c : Z) : obj := response_obj (SearchDone (mkResult c [] [])).
Definition px_bind : obj := request_obj (Bind 3 (B "cn=a") (Simple (B "pw"))).
(** handleProxiedResponse that answers later *)
Definition px_later (v op : obj) (cs : ctrls) : ahook := ALater.
(** Requests of any length in practice can be encoded. *)
Lemma request_encodable r : obj_size (request_obj r) < 256 ^ 126 -> encodable (2 ^ 64) (request_obj r).
Proof.
  intros L i I. apply (request_encodes i r None). change (obj_size (message_obj i (request_obj r) None)) with (130 + (130 + Z.log2 (Z.abs i) + 2) + obj_size (request_obj r) + 0).
  assert (Z.log2 (Z.abs i) <= 64). { rewrite Z.abs_eq by lia. change 64 with (Z.log2 (2 ^ 64)). apply Z.log2_le_mono. lia. }
  change (256 ^ 127) with (256 * 256 ^ 126). assert (2 <= 256 ^ 126) by (vm_compute; discriminate). lia.
Qed.

(** ** C55 *)
(** Whatever the hooks do and whatever happens: the hook is asked about the requests in the order in which
    they were received, followed by those that still wait, possibly with some left out, none twice. Each
    of these calls gives at most one result, the hook's own or the one that its Deferred was given. What
    reaches the server is what these results want to be passed on, in the order in which they were given,
    each at most once. *)
Theorem C55_at_most_once_in_order : forall before after use_tls options next es, let s := run before after use_tls options next es in
  subseq (asked (p_trace s) ++ p_queued s) (received (p_trace s)) /\
  NoDup (map (fun x => fst (fst x)) (tolds (p_trace s))) /\
  (forall n id h, In (n, id, h) (tolds (p_trace s)) -> exists op cs, nth_error (asked (p_trace s)) n = Some (id, op, cs) /\ (before op cs = h \/ before op cs = HLater /\ In (VTold n h) es)) /\
  subseq (forwarded (p_trace s)) (wanted (tolds (p_trace s))).
Proof.
  intros before after use_tls options next es s. destruct (ProxyProofs.order before after use_tls options next es) as (A & F & CO). cbn zeta in *. fold s in A, F, CO.
  destruct (calls_told before after _ _ _ _ CO) as (ND & _). split; [exact A|]. split; [exact ND|]. split; [|exact F]. exact (told_from before after use_tls options next es).
Qed.
Print Assumptions C55_at_most_once_in_order.
(** A hook that never gives a Deferred: what reaches the server, followed by what still waits, is what the
    hook makes of the requests, in the order in which they were received, possibly with some left out;
    none is sent twice. *)
Theorem C55_order_partial : forall before after use_tls options next es, prompt before -> let s := run before after use_tls options next es in
  subseq (forwarded (p_trace s) ++ flat_map (made before) (p_queued s)) (flat_map (made before) (received (p_trace s))).
Proof. intros before after use_tls options next es P. exact (order_prompt before after use_tls options next es P). Qed.
Print Assumptions C55_order_partial.
(** While no connection fails, the hook is asked about every request that does not wait, and once the server is
    connected none waits; each call has given its result, unless it gave a Deferred that has not fired; and what these
    results want to be passed on is, if it can be encoded with the message ids used. *)
Theorem C55_all_forwarded : forall before after use_tls options N next es, 0 <= next -> Forall calm es -> let s := run before after use_tls options next es in
  asked (p_trace s) ++ p_queued s = received (p_trace s) /\ (p_phase s = PhDone -> p_queued s = []) /\
  (forall n id op cs, nth_error (asked (p_trace s)) n = Some (id, op, cs) ->
     (exists h, In (n, id, h) (tolds (p_trace s))) \/ before op cs = HLater /\ forall h, h <> HLater -> In (n, id, h) (tolds (p_trace (step before after use_tls options s (VTold n h))))) /\
  (p_next s <= N -> Forall (fun x => forall op' cs', snd x = HForward op' cs' -> encodable N op') (tolds (p_trace s)) -> forwarded (p_trace s) = wanted (tolds (p_trace s))).
Proof.
  intros before after use_tls options N next es NX C s. destruct (run_exact before after use_tls options N next es NX C) as (A & B & Q). cbn zeta in *. fold s in A, B, Q.
  destruct (ProxyProofs.order before after use_tls options next es) as (_ & _ & CO). cbn zeta in CO. fold s in CO. destruct (calls_told before after _ _ _ _ CO) as (_ & TO).
  split; [exact A|]. split; [exact Q|]. split; [|exact B]. intros n id op cs E. destruct (TO n id op cs E) as [X|(X & Y)]; [now left|right]. split; [exact X|]. intros h H. cbn [step]. apply (told_late before after); [|exact Y|exact H]. exact (proj1 (proj2 (proj1 (run_ok before after use_tls options next es)))).
Qed.
Print Assumptions C55_all_forwarded.
Theorem C55_all_in_order_partial : forall before after use_tls options N next es, prompt before -> 0 <= next -> Forall calm es -> let s := run before after use_tls options next es in
  (p_next s <= N -> Forall (fun r => forall op' cs', before (snd (fst r)) (snd r) = HForward op' cs' -> encodable N op') (received (p_trace s)) ->
     forwarded (p_trace s) ++ flat_map (made before) (p_queued s) = flat_map (made before) (received (p_trace s))) /\
  (p_phase s = PhDone -> p_queued s = []).
Proof.
  intros before after use_tls options N next es P NX C s. destruct (run_exact before after use_tls options N next es NX C) as (A & B & Q). cbn zeta in *. fold s in A, B, Q. split; [|exact Q]. intros L H.
  destruct (ProxyProofs.order before after use_tls options next es) as (_ & _ & CO). cbn zeta in CO. fold s in CO. pose proof CO as (_ & TF & _ & _ & W).
  rewrite <- A, flat_map_app, B, (W P); [reflexivity|exact L|]. rewrite Forall_forall in *. intros ((n & id) & h) I op' cs' E. cbn in E. destruct (TF n id h I) as (_ & op & cs & NE & [Y|Y]); [|now destruct (P op cs)].
  apply (H (id, op, cs)) with (cs' := cs'); [|cbn; congruence]. rewrite <- A. apply in_or_app. left. eapply nth_error_In. exact NE.
Qed.
Print Assumptions C55_all_in_order_partial.
Definition px_es : list pevent :=
  [VMade; VRequest (px_msg 7 px_bind); VRequest (px_msg 5 (px_search (B "dc=a"))); VUp; VRequest (px_msg 6 (px_search (B "dc=b"))); VTls true; VRequest (px_msg 9 (px_search (B "dc=c")))].
Example C55_case : prompt default_before /\ Forall calm px_es /\ let s := run default_before default_after true false 1 px_es in
  p_phase s = PhDone /\ p_next s <= 2 ^ 64 /\ Forall (fun r => forall op' cs', default_before (snd (fst r)) (snd r) = HForward op' cs' -> encodable (2 ^ 64) op') (received (p_trace s)) /\
  map fst (forwarded (p_trace s)) = [VInt 7; VInt 5; VInt 6; VInt 9].
Proof.
  split; [discriminate|]. split; [repeat (apply Forall_cons; [exact I|]); constructor|]. split; [vm_compute; reflexivity|]. split; [vm_compute; discriminate|]. split; [|vm_compute; reflexivity].
  assert (E : received (p_trace (run default_before default_after true false 1 px_es)) = [(VInt 7, px_bind, None); (VInt 5, px_search (B "dc=a"), None); (VInt 6, px_search (B "dc=b"), None); (VInt 9, px_search (B "dc=c"), None)]) by (vm_compute; reflexivity).
  rewrite E. repeat (apply Forall_cons; [intros op' cs' X; injection X as <- <-; apply request_encodable; vm_compute; reflexivity|]). constructor.
Qed.
(** A hook that looks something up, asynchronously, before it passes a bind on *)
Definition px_check (op : obj) (cs : ctrls) : hook := match op with OBindReq _ _ _ _ => HLater | _ => HForward op cs end.
Definition px_late : list pevent := [VMade; VUp; VRequest (px_msg 7 px_bind); VRequest (px_msg 5 (px_search (B "dc=a"))); VTold 0 (HForward px_bind None)].
Example C55_late_case : Forall calm px_late /\ let s := run px_check default_after false false 1 px_late in
  p_next s <= 2 ^ 64 /\ Forall (fun x => forall op' cs', snd x = HForward op' cs' -> encodable (2 ^ 64) op') (tolds (p_trace s)) /\ asked (p_trace s) = received (p_trace s).
Proof.
  split; [repeat (apply Forall_cons; [exact I|]); constructor|]. split; [vm_compute; discriminate|]. split; [|vm_compute; reflexivity].
  assert (E : tolds (p_trace (run px_check default_after false false 1 px_late)) = [(1%nat, VInt 5, HForward (px_search (B "dc=a")) None); (0%nat, VInt 7, HForward px_bind None)]) by (vm_compute; reflexivity).
  rewrite E. repeat (apply Forall_cons; [intros op' cs' X; injection X as <- <-; apply request_encodable; vm_compute; reflexivity|]). constructor.
Qed.
(** Refuted: that requests are passed on in order whatever the hook. While its Deferred for the bind waits, the
    search that was received after it is passed on, so that the server sees it first, without the bind. *)
Theorem C55_late_refuted : exists before es, Forall calm es /\ let s := run before default_after false false 1 es in
  map (fun r => fst (fst r)) (received (p_trace s)) = [VInt 7; VInt 5] /\ forwarded (p_trace s) = [(VInt 5, px_search (B "dc=a")); (VInt 7, px_bind)].
Proof. exists px_check, px_late. split; [repeat (apply Forall_cons; [exact I|]); constructor|]. vm_compute. auto. Qed.
Print Assumptions C55_late_refuted.
(** When the server cannot be reached, requests are dropped. *)
Theorem C55_all_forwarded_refuted : exists es, let s := run default_before default_after false false 1 es in
  map (fun r => fst (fst r)) (received (p_trace s)) = [VInt 5] /\ forwarded (p_trace s) = [] /\ p_queued s = [] /\ written (p_trace s) = [].
Proof. exists [VMade; VRequest (px_msg 5 (px_search (B "dc=a"))); VDown]. vm_compute. auto. Qed.
Print Assumptions C55_all_forwarded_refuted.

(** ** C56 *)
(** For each request passed on, the responses that were written, in order, are the results of the first
    [D] of the responses in order of arrival. While the client is there and the results can be written,
    they are exactly those, and the next one has no result yet. *)
Theorem C56_order_partial : forall before after use_tls options next es b op cs id, let s := run before after use_tls options next es in
  In (PForward b op cs id) (p_trace s) -> exists D Q,
  arrivals b (p_trace s) = map fst D ++ Q /\ Forall (fun x => gave (fst x) (Some (snd x)) (p_trace s)) D /\
  subseq (replies b (p_trace s)) (map (pair id) (vals D)) /\
  (p_conn s = Some true -> (forall n v, In n (arrivals b (p_trace s)) -> gave n (Some (Some v)) (p_trace s) -> writable id v) ->
     replies b (p_trace s) = map (pair id) (vals D) /\ (forall n Q' r, Q = n :: Q' -> ~ gave n (Some r) (p_trace s))).
Proof. exact ProxyOrder.order. Qed.
Print Assumptions C56_order_partial.
(** A response is processed once, and gives one result. *)
Theorem C56_once : forall before after use_tls options next es, let t := p_trace (run before after use_tls options next es) in
  (forall b, NoDup (arrivals b t)) /\ (forall n r r', gave n r t -> gave n r' t -> r = r').
Proof. intros before after use_tls options next es t. split; [intros b; apply arrivals_once|intros n r r'; apply gave_once]. Qed.
Print Assumptions C56_once.
(** Once all responses have results, all are written. *)
Theorem C56_all_sent_partial : forall before after use_tls options next es b op cs id, let s := run before after use_tls options next es in
  In (PForward b op cs id) (p_trace s) -> p_conn s = Some true ->
  (forall n, In n (arrivals b (p_trace s)) -> exists r, gave n (Some r) (p_trace s)) ->
  (forall n v, In n (arrivals b (p_trace s)) -> gave n (Some (Some v)) (p_trace s) -> writable id v) ->
  exists D, arrivals b (p_trace s) = map fst D /\ Forall (fun x => gave (fst x) (Some (snd x)) (p_trace s)) D /\ replies b (p_trace s) = map (pair id) (vals D).
Proof.
  intros before after use_tls options next es b op cs id s I C A W. destruct (ProxyOrder.order before after use_tls options next es b op cs id I) as (D & Q & E & HD & _ & EX).
  destruct (EX C W) as (ER & NQ). fold s in E, HD, ER, NQ. destruct Q as [|n Q']; [rewrite app_nil_r in E; exists D; auto|]. exfalso.
  destruct (A n) as (r & G); [rewrite E; apply in_or_app; right; now left|]. exact (NQ n Q' r eq_refl G).
Qed.
Print Assumptions C56_all_sent_partial.
(** When a result is a failure, nothing that arrived after it is ever written. *)
Theorem C56_blocked : forall before after use_tls options next es b op cs id P n Z, let t := p_trace (run before after use_tls options next es) in
  In (PForward b op cs id) t -> arrivals b t = P ++ n :: Z -> gave n None t ->
  exists D Q, P = map fst D ++ Q /\ Forall (fun x => gave (fst x) (Some (snd x)) t) D /\ subseq (replies b t) (map (pair id) (vals D)).
Proof.
  intros before after use_tls options next es b op cs id P n Z t I EA GN. destruct (ProxyOrder.order before after use_tls options next es b op cs id I) as (D & Q & E & HD & SB & _). fold t in E, HD, SB.
  exists D. rewrite EA in E. assert (X : exists Q', P = map fst D ++ Q').
  { assert (ND : ~ In n (map fst D)).
    { intros X. apply in_map_iff in X as (x & <- & X). rewrite Forall_forall in HD. pose proof (gave_once _ _ _ _ _ _ _ _ _ GN (HD x X)). discriminate. }
    clear - E ND. revert P E. generalize (map fst D) ND. intros L. clear ND. intros ND. revert ND. induction L as [|m L IH]; intros ND P E; [exists P; reflexivity|].
    destruct P as [|p P]; cbn in E; inversion E; subst; [destruct ND; now left|]. destruct (IH ltac:(intros X; apply ND; now right) P H1) as (Q' & ->). exists Q'. reflexivity. }
  destruct X as (Q' & ->). exists Q'. auto.
Qed.
Print Assumptions C56_blocked.
Definition px_two : list pevent :=
  [VMade; VUp; VRequest (px_msg 5 (px_search (B "dc=a"))); VRequest (px_msg 6 (px_search (B "dc=b"))); VResponse (px_msg 1 (px_entry (B "cn=x"))); VResponse (px_msg 1 (px_done 0)); VResponse (px_msg 2 (px_done 0))].
Example C56_case : let s := run default_before px_later false false 1 (px_two ++ [VLater 1 (Some (Some (px_done 0))); VLater 0 (Some (Some (px_entry (B "cn=y"))))]) in
  In (PForward 1 (px_search (B "dc=a")) None (VInt 5)) (p_trace s) /\ p_conn s = Some true /\ arrivals 1 (p_trace s) = [0; 1]%nat /\
  (forall n, In n (arrivals 1 (p_trace s)) -> exists r, gave n (Some r) (p_trace s)) /\
  (forall n v, In n (arrivals 1 (p_trace s)) -> gave n (Some (Some v)) (p_trace s) -> writable (VInt 5) v) /\
  replies 1 (p_trace s) = [(VInt 5, px_entry (B "cn=y")); (VInt 5, px_done 0)].
Proof.
  match goal with |- let s := ?r in _ => let t := eval vm_compute in (p_trace r) in assert (T : p_trace r = t) by (vm_compute; reflexivity) end. cbn zeta. rewrite T. clear T.
  split; [cbn; tauto|]. split; [vm_compute; reflexivity|]. split; [vm_compute; reflexivity|].
  split; [intros n [<-|[<-|[]]]; [exists (Some (px_entry (B "cn=y")))|exists (Some (px_done 0))]; unfold gave; vm_compute; tauto|]. split; [|vm_compute; reflexivity].
  intros n v _ G. unfold gave in G. cbn [In] in G. repeat (destruct G as [G|G]; [first [discriminate|injection G as <- <-; eexists; reflexivity]|]). contradiction.
Qed.
(** handleProxiedResponse fails for one entry: the rest, the final response included, is never sent. *)
Theorem C56_failure_refuted : exists es, let s := run default_before px_later false false 1 es in
  p_conn s = Some true /\ arrivals 1 (p_trace s) = [0; 1]%nat /\ gave 1 (Some (Some (px_done 0))) (p_trace s) /\ gave 0 None (p_trace s) /\ written (p_trace s) = [].
Proof.
  exists (px_two ++ [VLater 0 None; VLater 1 (Some (Some (px_done 0)))]). split; [vm_compute; reflexivity|]. split; [vm_compute; reflexivity|].
  split; [vm_compute; tauto|]. split; [vm_compute; tauto|vm_compute; reflexivity].
Qed.
Print Assumptions C56_failure_refuted.
(** The order of responses to different requests is not kept. *)
Theorem C56_across_refuted : exists es, let s := run default_before px_later false false 1 es in
  arr (p_trace s) = [(1, 0%nat); (1, 1%nat); (2, 2%nat)] /\ written (p_trace s) = [(VInt 6, px_done 0); (VInt 5, px_entry (B "cn=x")); (VInt 5, px_done 0)].
Proof.
  exists (px_two ++ [VLater 2 (Some (Some (px_done 0))); VLater 1 (Some (Some (px_done 0))); VLater 0 (Some (Some (px_entry (B "cn=x"))))]). split; vm_compute; reflexivity.
Qed.
Print Assumptions C56_across_refuted.

(** ** C57 *)
(** With the hook of ProxyBase: what reaches the server are the requests received, unchanged, in order. *)
Theorem C57_request_unchanged_partial : forall after use_tls options next es, let s := run default_before after use_tls options next es in
  subseq (forwarded (p_trace s)) (map fst (received (p_trace s))).
Proof.
  intros after use_tls options next es s. pose proof (order_prompt default_before after use_tls options next es ltac:(discriminate)) as H. fold s in H.
  assert (E : forall l, flat_map (made default_before) l = map fst l) by (induction l as [|((id & op) & cs) l IH]; [reflexivity|cbn; now rewrite IH]). rewrite !E in H. exact (subseq_drop _ _ _ H).
Qed.
Print Assumptions C57_request_unchanged_partial.
(** With the hook of ProxyBase: what is written for a request are the server's responses to it, unchanged,
    in order, under the id of the request. *)
Theorem C57_responses_unchanged : forall before use_tls options next es b op cs id, let s := run before default_after use_tls options next es in let t := p_trace s in
  In (PForward b op cs id) t -> subseq (replies b t) (map (pair id) (answers b t)) /\
  (p_conn s = Some true -> (forall v, In v (answers b t) -> writable id v) -> replies b t = map (pair id) (answers b t)).
Proof. intros before use_tls options next es b op cs id s t. exact (default_responses before use_tls options next es b op cs id). Qed.
Print Assumptions C57_responses_unchanged.
(** Controls never reach the server, whatever the hook gives. *)
Theorem C57_controls_refuted : forall before after use_tls options next es b op cs id, In (PForward b op cs id) (p_trace (run before after use_tls options next es)) -> cs = None.
Proof. exact no_controls. Qed.
Print Assumptions C57_controls_refuted.
Example C57_case : let s := run default_before default_after false false 1
    [VMade; VUp; VRequest (OMessage 0x10 (VInt 5) (px_search (B "dc=a")) (Some [(VBytes (B "1.2.3"), VInt 1, VNone)])); VResponse (px_msg 1 (px_entry (B "cn=x"))); VResponse (px_msg 1 (px_done 0))] in
  In (PForward 1 (px_search (B "dc=a")) None (VInt 5)) (p_trace s) /\ received (p_trace s) = [(VInt 5, px_search (B "dc=a"), Some [(VBytes (B "1.2.3"), VInt 1, VNone)])] /\
  (forall v, In v (answers 1 (p_trace s)) -> writable (VInt 5) v) /\ answers 1 (p_trace s) = [px_entry (B "cn=x"); px_done 0].
Proof.
  assert (E : answers 1 (p_trace (run default_before default_after false false 1
    [VMade; VUp; VRequest (OMessage 0x10 (VInt 5) (px_search (B "dc=a")) (Some [(VBytes (B "1.2.3"), VInt 1, VNone)])); VResponse (px_msg 1 (px_entry (B "cn=x"))); VResponse (px_msg 1 (px_done 0))])) = [px_entry (B "cn=x"); px_done 0]) by (vm_compute; reflexivity).
  cbn zeta. rewrite E. split; [vm_compute; tauto|]. split; [vm_compute; reflexivity|]. split; [|reflexivity]. intros v [<-|[<-|[]]]; eexists; reflexivity.
Qed.
(** An abandon is passed on with the client's message id: here the client abandons its operation 1, and
    the server is told to abandon the client's operation 2. *)
Theorem C57_abandon_refuted : exists es, let t := p_trace (run default_before default_after false false 1 es) in
  flat_map (fun e => match e with PForward b op _ id => [(b, op, id)] | _ => [] end) t =
    [(1, px_search (B "dc=b"), VInt 2); (2, px_search (B "dc=a"), VInt 1); (3, request_obj (Abandon 1), VInt 3)].
Proof. exists [VMade; VUp; VRequest (px_msg 2 (px_search (B "dc=b"))); VRequest (px_msg 1 (px_search (B "dc=a"))); VRequest (px_msg 3 (request_obj (Abandon 1)))]. vm_compute. reflexivity. Qed.
Print Assumptions C57_abandon_refuted.

(** Whatever the hooks do: after the response that ends a search or a bind nothing more is taken as a response to it. *)
Theorem C57_ends : forall before after use_tls options next es b l v r, answers b (p_trace (run before after use_tls options next es)) = l ++ v :: r -> ends v -> r = [].
Proof. intros before after use_tls options next es b l v r E EN. exact (proj1 (proj2 (run_over before after use_tls options b next es) l v r E EN)). Qed.
Print Assumptions C57_ends.
Example C57_ends_case : answers 1 (p_trace (run default_before default_after false false 1
    [VMade; VUp; VRequest (px_msg 7 (px_search (B "dc=a"))); VResponse (px_msg 1 (px_entry (B "cn=x,dc=a"))); VResponse (px_msg 1 (px_done 0)); VResponse (px_msg 1 (px_done 0))])) = [px_entry (B "cn=x,dc=a"); px_done 0] /\ ends (px_done 0).
Proof. split; [vm_compute; reflexivity|exact I]. Qed.

(** ** C76 *)
(** Once the client has gone (and the connection to the server does not use TLS), no request is handled or
    passed on and nothing is written to the client; a connection to the server that is up has been closed. *)
Theorem C76_client_gone_partial : forall before after options next es es', let s := run before after false options next es in let s' := run before after false options next (es ++ es') in
  p_conn s = Some false ->
  received (p_trace s') = received (p_trace s) /\ forwarded (p_trace s') = forwarded (p_trace s) /\ written (p_trace s') = written (p_trace s) /\
  p_conn s' = Some false /\ (l_up (p_link s') = true -> In PCloseServer (p_trace s')).
Proof.
  intros before after options next es es' s s' C. destruct (gone_rest before after options next es es' C) as (o & E & H). destruct (gone_nothing o H) as (A1 & A2 & A3). fold s s' in E.
  rewrite E, forwarded_app, received_app. unfold written at 1. rewrite flat_map_app. fold (written o). fold (written (p_trace s)). rewrite A1, A2, A3, !app_nil_r. split; [reflexivity|]. split; [reflexivity|]. split; [reflexivity|].
  assert (CG : p_conn s' = Some false).
  { assert (X : s' = fold_left (step before after false options) es' s) by apply fold_left_app. rewrite X. clear - C. destruct (run_gone before after options next es) as (G & Q & P). fold s in G, Q, P. revert G Q P C. generalize s.
    induction es' as [|e es' IH]; intros s0 G Q P C; [exact C|]. cbn [fold_left]. destruct (gone_step before after options s0 e G C) as (_ & C'). destruct (step_ok before after false options s0 e Q P) as (Q' & P').
    apply IH; auto. apply step_gone; [exact (proj1 (proj2 Q))|exact G]. }
  split; [exact CG|]. intros U. rewrite <- E. destruct (run_gone before after options next (es ++ es')) as ((_ & _ & G3 & _) & _). exact (G3 CG U).
Qed.
Print Assumptions C76_client_gone_partial.
Example C76_case : let s := run default_before px_later false false 1 (px_two ++ [VLost]) in let s' := run default_before px_later false false 1 ((px_two ++ [VLost]) ++ [VLater 0 (Some (Some (px_done 0)))]) in
  p_conn s = Some false /\ length (forwarded (p_trace s)) = 2%nat /\ l_up (p_link s') = true /\ In (PRaised ELostConn) (p_trace s').
Proof. cbn zeta. split; [vm_compute; reflexivity|]. split; [vm_compute; reflexivity|]. split; [vm_compute; reflexivity|]. vm_compute. tauto. Qed.
(** With TLS: a client that goes while TLS is being set up has its requests, the bind with its password
    included, sent to the server afterwards, and that connection is never closed. *)
Theorem C76_client_gone_refuted : exists es es', let s := run default_before default_after true false 1 es in let s' := run default_before default_after true false 1 (es ++ es') in
  p_conn s = Some false /\ forwarded (p_trace s) = [] /\ forwarded (p_trace s') = [(VInt 7, px_bind)] /\ l_up (p_link s') = true /\ ~ In PCloseServer (p_trace s').
Proof.
  exists [VMade; VRequest (px_msg 7 px_bind); VUp; VLost], [VTls true]. cbn zeta. split; [vm_compute; reflexivity|]. split; [vm_compute; reflexivity|]. split; [vm_compute; reflexivity|]. split; [vm_compute; reflexivity|].
  match goal with |- ~ In _ (p_trace ?r) => assert (E : existsb (fun e => match e with PCloseServer => true | _ => false end) (p_trace r) = false) by (vm_compute; reflexivity); revert E; generalize (p_trace r) end.
  intros t E H. assert (X : existsb (fun e => match e with PCloseServer => true | _ => false end) t = true) by (apply existsb_exists; exists PCloseServer; auto). congruence.
Qed.
Print Assumptions C76_client_gone_refuted.

(** ** C77 *)
(** When the server has closed its connection, no request is ever answered (StartTLS is, by the proxy
    itself), nothing is passed on, and the client's connection is not closed: whatever the hooks, if
    they do not answer requests themselves, and whatever happens then. *)
Theorem C77_server_gone_refuted : forall before after options next es, (forall op cs, passes (before op cs)) -> Forall passing es ->
  let t := p_trace (run before after false options next (VMade :: VUp :: VServerLost :: es)) in
  forwarded t = [] /\ ~ In PCloseClient t /\ forall id v b, In (PReply id v b) t -> exists c, v = ext_obj c (VBytes []) VNone.
Proof.
  intros before after options next es F FE t. assert (D : deaf (fold_left (step before after false options) es (fold_left (step before after false options) [VMade; VUp; VServerLost] (p0 next)))).
  { apply deaf_run; [exact F|exact FE|]. split; [reflexivity|]. split; [reflexivity|]. split; [reflexivity|constructor]. }
  destruct D as (_ & _ & _ & D). change (Forall deaf_event t) in D. rewrite Forall_forall in D. split; [|split].
  - destruct (forwarded t) as [|x l] eqn:E; [reflexivity|]. exfalso. assert (I : In x (forwarded t)) by (rewrite E; now left). unfold forwarded in I. apply in_flat_map in I as (e & I & H). destruct e; try contradiction. exact (D _ I).
  - intros I. exact (D _ I).
  - intros id v b I. exact (D _ I).
Qed.
Print Assumptions C77_server_gone_refuted.
Example C77_case : (forall op cs, passes (default_before op cs)) /\ (forall op cs, passes (px_check op cs)) /\ Forall passing [VRequest (px_msg 5 (px_search (B "dc=a")))] /\
  map (fun r => fst (fst r)) (received (p_trace (run default_before default_after false false 1 (VMade :: VUp :: VServerLost :: [VRequest (px_msg 5 (px_search (B "dc=a")))])))) = [VInt 5].
Proof. split; [intros op cs; exact I|]. split; [intros op cs; destruct op; exact I|]. split; [repeat constructor|vm_compute; reflexivity]. Qed.

(** ** C93 *)
(** TLS is started at most once, only if the factory has options for it, and right after the proxy has answered a StartTLS
    request with success. *)
Theorem C93_started : forall before after use_tls options next es l r, p_trace (run before after use_tls options next es) = l ++ PTls :: r ->
  options = true /\ ~ In PTls l /\ ~ In PTls r /\
  exists l0 id op cs, l = l0 ++ [PGot id op cs; PReply id (tls_reply 0) None] /\ is_starttls op = true.
Proof.
  intros before after use_tls options next es l r E. destruct (run_TI before after use_tls options next es) as (H & _). rewrite E in H.
  destruct (tls_started options _ l (le_n _) false r H) as (A & _ & B & C & D). split; [exact A|].
  assert (N : forall t, existsb is_tls t = false -> ~ In PTls t). { intros t X I. assert (Y : existsb is_tls t = true) by (apply existsb_exists; exists PTls; auto). congruence. }
  split; [now apply N|]. split; [now apply N|exact D].
Qed.
Print Assumptions C93_started.

(** Every StartTLS request is answered at once, whether or not there is a connection to the server: with success, followed by TLS,
    if there are options and TLS has not been started; with operationsError if it has; with unavailable if there are no options.
    It is only left unanswered if its message id cannot be sent back. *)
Theorem C93_answered : forall before after use_tls options next es l id op cs r, p_trace (run before after use_tls options next es) = l ++ PGot id op cs :: r ->
  is_starttls op = true -> forall c, (options = false /\ c = 52 \/ options = true /\ In PTls l /\ c = 1 \/ options = true /\ ~ In PTls l /\ c = 0) -> writable id (tls_reply c) ->
  exists r', r = PReply id (tls_reply c) None :: r' /\ (c = 0 -> exists r2, r' = PTls :: r2).
Proof.
  intros before after use_tls options next es l id op cs r E S c HC W. destruct (run_TI before after use_tls options next es) as (H & _). rewrite E in H.
  pose proof (tls_got options _ l (le_n _) false id op cs r H S) as G. cbn zeta in G. cbn [orb] in G.
  assert (X : tls_code options (existsb is_tls l) = c).
  { destruct HC as [(-> & ->)|[(-> & I & ->)|(-> & I & ->)]]; [reflexivity| |].
    - assert (Y : existsb is_tls l = true) by (apply existsb_exists; exists PTls; auto). now rewrite Y.
    - destruct (existsb is_tls l) eqn:Y; [|reflexivity]. apply existsb_exists in Y as (e & Y1 & Y2). destruct e; try discriminate. contradiction. }
  rewrite X in G. destruct G as [G|(x & r' & _ & N)]; [exact G|contradiction].
Qed.
Print Assumptions C93_answered.
Definition px_tls : obj := request_obj (Extended (B "1.3.6.1.4.1.1466.20037") None).
Example C93_case : is_starttls px_tls = true /\ writable (VInt 5) (tls_reply 0) /\ writable (VInt 5) (tls_reply 1) /\ writable (VInt 5) (tls_reply 52) /\
  p_trace (run default_before default_after false true 1 [VMade; VRequest (px_msg 5 px_tls); VRequest (px_msg 6 px_bind); VRequest (px_msg 7 px_tls)]) =
    [PGot (VInt 5) px_tls None; PReply (VInt 5) (tls_reply 0) None; PTls; PGot (VInt 6) px_bind None; PGot (VInt 7) px_tls None; PReply (VInt 7) (tls_reply 1) None] /\
  p_trace (run default_before default_after false false 1 [VMade; VRequest (px_msg 5 px_tls)]) = [PGot (VInt 5) px_tls None; PReply (VInt 5) (tls_reply 52) None].
Proof. split; [reflexivity|]. do 3 (split; [eexists; vm_compute; reflexivity|]). split; vm_compute; reflexivity. Qed.

(** ldapserver.py 31-41: the messages that one call of dataReceived decodes are handled one after the other *)
Definition px_data (msgs : list obj) : list pevent := map VRequest msgs.
(** Refuted: that requests handled after TLS was started came over TLS. What is in the same segment as the StartTLS request, so
    arrived in plaintext, is handled after TLS was started, here a bind that reaches the server. *)
Theorem C93_plaintext_refuted : exists msgs es l r b op cs id, let s := run default_before default_after false true 1 in
  p_tls (s es) = false /\ p_trace (s (es ++ px_data msgs)) = p_trace (s es) ++ l ++ PTls :: r /\ In (PForward b op cs id) r /\ In (px_msg 6 op) msgs.
Proof.
  exists [px_msg 5 px_tls; px_msg 6 px_bind], [VMade; VUp], [PGot (VInt 5) px_tls None; PReply (VInt 5) (tls_reply 0) None], [PGot (VInt 6) px_bind None; PAsk 0 (VInt 6) px_bind None; PTold 0 (VInt 6) (HForward px_bind None); PForward 1 px_bind None (VInt 6)], 1, px_bind, None, (VInt 6).
  cbn zeta. split; [reflexivity|]. split; [vm_compute; reflexivity|]. split; [do 3 right; now left|right; now left].
Qed.
Print Assumptions C93_plaintext_refuted.

(** ** C94 *)
(** The connection to the client is closed only when the server cannot be reached: then all bind requests that had come were answered with unavailable,
    in order, right before it, and nothing was passed on; and it is closed once. *)
Theorem C94_refused : forall before after use_tls options next es l r, p_trace (run before after use_tls options next es) = l ++ PCloseClient :: r ->
  exists l0, l = l0 ++ map unavailable (binds (received l0)) /\ forwarded l0 = [] /\ ~ In PCloseClient l /\ ~ In PCloseClient r.
Proof.
  intros before after use_tls options next es l r E. destruct (run_V before after use_tls options next es) as (_ & H). destruct (H l r E) as (l0 & A & B & C & D). exists l0.
  repeat (split; [assumption|]). split; now apply noclose_out.
Qed.
Print Assumptions C94_refused.

(** When connecting fails, or TLS with the server, the bind requests that have come are answered with unavailable and the client is disconnected. *)
Theorem C94_unreachable : forall before after use_tls options next es es' e, Forall meanwhile es -> In VMade es -> Forall meanwhile es' ->
  forall sofar, (sofar = es /\ e = VDown \/ use_tls = true /\ sofar = es ++ VUp :: es' /\ e = VTls false) ->
  let t := p_trace (run before after use_tls options next sofar) in (forall id, In id (binds (received t)) -> writable id bind_unavailable) ->
  p_trace (run before after use_tls options next (sofar ++ [e])) = t ++ map unavailable (binds (received t)) ++ [PCloseClient].
Proof.
  intros before after use_tls options next es es' e M I M' sofar [(-> & ->)|(U & -> & ->)] t W; [now apply down|now apply tls_down].
Qed.
Print Assumptions C94_unreachable.
Example C94_case : Forall meanwhile [VMade; VRequest (px_msg 5 px_bind); VRequest (px_msg 6 (px_search (B "dc=x")))] /\ writable (VInt 5) bind_unavailable /\
  p_trace (run default_before default_after true false 1 [VMade; VRequest (px_msg 5 px_bind); VRequest (px_msg 6 (px_search (B "dc=x"))); VUp; VRequest (px_msg 7 px_bind); VTls false]) =
    [PGot (VInt 5) px_bind None; PGot (VInt 6) (px_search (B "dc=x")) None; PGot (VInt 7) px_bind None; unavailable (VInt 5); unavailable (VInt 7); PCloseClient].
Proof. split; [repeat constructor|]. split; [eexists|]; vm_compute; reflexivity. Qed.
