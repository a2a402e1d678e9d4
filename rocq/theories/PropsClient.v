(** The LDAP client: completion, routing and StartTLS (C40-C42). In all theorems [reps], [choose] and
    [verdict] are any behaviour of the callbacks and handlers of the user, who may send more requests
    while one of them runs; [es] is any history. *)
From Verif Require Import Base BaseFacts BerModel LdapModel LdapSpec StreamModel ClientModel ClientSpec ClientProofs ClientStream ClientKinds.

(** C40. A request completes only if it was sent and at most once (1); once the connection is lost,
    every request that was outstanding fails, all requests have completed and none is kept (2),
    nothing is registered or written after that, and a send raises (3). *)
Theorem C40_completion : forall reps choose verdict next es, 0 < next ->
  let s := run reps choose verdict next es in
  (forall a e b i, c_trace s = a ++ e :: b -> In i (completes e) -> In i (sents a) /\ ~ In i (completions a)) /\
  (forall a b, c_trace s = a ++ TLost :: b ->
     (forall i, outstanding a i -> In (TFailed i) b) /\
     (forall i, In i (sents (c_trace s)) -> In i (completions (c_trace s))) /\
     sents b = [] /\ (forall w, ~ In (TWritten w) b) /\ c_onwire s = [] /\
     forall k op controls, c_trace (run reps choose verdict next (es ++ [EUser (USend k op controls)])) = c_trace s ++ [TRaised ELostConn]).
Proof.
  intros reps choose verdict next es P. split.
  - intros a e b i. exact (completes_once reps choose verdict next P es a e b i).
  - intros a b. exact (after_loss reps choose verdict next P es a b).
Qed.
Print Assumptions C40_completion.

(** C41. Ids of requests are pairwise different (1); a Deferred fires and a handler is called only
    with the value of the message received last, for the request with its id, while that request is
    outstanding (2); a response to an outstanding request is given to it before the next message is
    looked at, or dataReceived raises AssertionError: arguments without a handler (3); a request is
    written under the id it is registered with, unless encoding it raises (4). *)
Theorem C41_routing : forall reps choose verdict next es, 0 < next ->
  let t := c_trace (run reps choose verdict next es) in
  NoDup (sents t) /\
  (forall a e b i v, t = a ++ e :: b -> (e = TFired i v \/ exists r, e = TCalled i v r) -> outstanding a i /\ last_got a i v) /\
  (forall a i v c b, t = a ++ TGot i v c :: b -> outstanding a i ->
     exists p e q, b = p ++ e :: q /\ flat_map got p = [] /\ (e = TFired i v \/ (exists r, e = TCalled i v r) \/ e = TError EAssert)) /\
  (forall a i op tls b, t = a ++ TSent i op tls :: b -> written i op b).
Proof.
  intros reps choose verdict next es P. destruct (run_ok reps choose verdict next es P) as (V & A & _). split; [|split; [|split]].
  - apply sents_NoDup, V.
  - intros a e b i v. exact (delivered reps choose verdict next P es a e b i v).
  - exact A.
  - exact (run_written reps choose verdict next es).
Qed.
Print Assumptions C41_routing.

(** C41, all of the stream. If what arrives is any list of encoded responses, cut in any way and
    with anything happening in between, and dataReceived never raises, then exactly these messages
    are looked at, in order. *)
Theorem C41_stream : forall reps choose verdict next es (ms : list (Z * response * option (list control))) ws,
  Forall2 (fun '(i, r, cs) w => toWire (message_obj i (response_obj r) cs) = Ok w) ms ws -> arrived es = concat ws ->
  let t := c_trace (run reps choose verdict next es) in
  (exists e, In (TError e) t) \/
  map (fun '(i, v, c) => read_message read_response (OMessage 0x10 (VInt i) v c)) (gots t) = map (fun '(i, r, cs) => Some (i, seen_response r, cs)) ms.
Proof. exact client_stream. Qed.
Print Assumptions C41_stream.

(** A call on an open connection registers the request under the next id, with what its method says, and writes it with the controls
    given; what was registered stays as it is; a request with a handler never fires its Deferred, one without never calls a handler. *)
Theorem C41_kinds : forall reps choose verdict next es, 0 < next -> let s0 := run reps choose verdict next es in c_connected s0 = Some true ->
  forall k op cs, let i := c_next s0 in
  ((k = KNoResponse <-> ~ expects op) -> exists s1, s1 = run reps choose verdict next (es ++ [EUser (USend k op cs)]) /\
    c_onwire s1 = c_onwire s0 ++ (match k with KNoResponse => [] | _ => [(i, kept k)] end) /\ c_next s1 = i + 1 /\
    c_trace s1 = c_trace s0 ++ (match k with KNoResponse => [] | _ => [TSent i op false] end) ++
      [match toWire (OMessage 0x10 (VInt i) op (sent_controls k cs)) with Ok w => TWritten w | Err x => TRaised x end]) /\
  (k <> KNoResponse -> expects op -> forall es', let s := run reps choose verdict next (es ++ EUser (USend k op cs) :: es') in
    (forall w, In (i, w) (c_onwire s) -> w = kept k) /\ (forall v, In (TFired i v) (c_trace s) -> w_handler (kept k) = false) /\ (forall v r, In (TCalled i v r) (c_trace s) -> w_handler (kept k) = true)).
Proof. intros reps choose verdict next es P s0 CN k op cs i. split; [exact (sends_it reps choose verdict next es P CN k op cs)|]. intros K X es'. exact (kinds reps choose verdict next es P CN k op cs es' K X). Qed.
Print Assumptions C41_kinds.
Example C41_kinds_case : let cs := Some [(VBytes (B "1.2"), VInt 1, VNone)] in
  exists w w' s, s = run (fun _ => O) (fun _ => None) (fun _ => Ok false) 1
      [EMade; EUser (USend (KMultiEx true true) (OStr KDelReq 0x4A (B "cn=b")) cs); EUser (USend KNoResponse (ONull KUnbind 0x42) None)] /\
    c_onwire s = [(1, mkSlot true true true false)] /\ c_trace s = [TSent 1 (OStr KDelReq 0x4A (B "cn=b")) false; TWritten w; TWritten w'] /\
    toWire (OMessage 0x10 (VInt 1) (OStr KDelReq 0x4A (B "cn=b")) cs) = Ok w /\ toWire (OMessage 0x10 (VInt 1) (OStr KDelReq 0x4A (B "cn=b")) None) <> Ok w.
Proof. do 3 eexists. split; [reflexivity|]. split; [vm_compute; reflexivity|]. split; [vm_compute; reflexivity|]. split; [vm_compute; reflexivity|vm_compute; discriminate]. Qed.
(** Only responses are looked at: a message of another kind is given to no request. *)
Theorem C41_only_responses : forall reps choose verdict next es j v c, In (TGot j v c) (c_trace (run reps choose verdict next es)) -> a_response v.
Proof. exact only_responses. Qed.
Print Assumptions C41_only_responses.

(** A history: two requests, the answer to the second comes first and its callback sends a third;
    then the connection is lost. *)
Definition cx_reps (t : list tev) : nat := match rev t with TFired _ _ :: _ => 1 | _ => 0 end.
Definition cx_choose (t : list tev) : option useract := Some (USend KSend (OStr KDelReq 0x4A (B "cn=c")) None).
Definition cx_verdict (t : list tev) : res bool := Ok true.
Definition cx_resp (id : Z) (v : obj) : bytes := match toWire (OMessage 0x10 (VInt id) v None) with Ok w => w | Err _ => [] end.
Definition cx_del : obj := OResult KDelResp 0x4B (VInt 0) (VBytes []) (VBytes []) VNone.
Definition cx_es : list cevent :=
  [EMade; EUser (USend KSend (OStr KDelReq 0x4A (B "cn=a")) None); EUser (USend (KMulti true true) (OStr KDelReq 0x4A (B "cn=b")) None);
   EUser (USend KSend (OStr KDelReq 0x4A (B "cn=d")) None); EData (firstn 5 (cx_resp 2 cx_del)); EData (skipn 5 (cx_resp 2 cx_del) ++ cx_resp 1 cx_del); ELost].
Example C40_case : exists a b, c_trace (run cx_reps cx_choose cx_verdict 1 cx_es) = a ++ TLost :: b /\
  sents a = [1; 2; 3; 4] /\ completions a = [2; 1] /\ completions b = [4; 3].
Proof.
  eexists. eexists. split; [|split; [|split]].
  - instantiate (1 := [TFailed 4; TFailed 3]).
    instantiate (1 := removelast (removelast (removelast (c_trace (run cx_reps cx_choose cx_verdict 1 cx_es))))). vm_compute. reflexivity.
  - vm_compute. reflexivity.
  - vm_compute. reflexivity.
  - reflexivity.
Qed.
Example C41_stream_case : arrived cx_es = cx_resp 2 cx_del ++ cx_resp 1 cx_del /\
  length (gots (c_trace (run cx_reps cx_choose cx_verdict 1 cx_es))) = 2%nat /\
  (forall e, ~ In (TError e) (c_trace (run cx_reps cx_choose cx_verdict 1 cx_es))).
Proof. split; [vm_compute; reflexivity|]. split; [vm_compute; reflexivity|]. intros e. vm_compute. intuition discriminate. Qed.
Example C41_case : exists a b v, c_trace (run cx_reps cx_choose cx_verdict 1 cx_es) = a ++ TFired 1 v :: b /\ outstanding a 3.
Proof.
  exists (firstn 9 (c_trace (run cx_reps cx_choose cx_verdict 1 cx_es))), (skipn 10 (c_trace (run cx_reps cx_choose cx_verdict 1 cx_es))), cx_del.
  split; [vm_compute; reflexivity|]. split; vm_compute; intuition congruence.
Qed.

(** C42, first half. The transport is switched to TLS only right after a success response to a
    StartTLS request; when that request was sent, every earlier request had completed.
    Partial: that nothing received before the switch is handled after it is false, see below. *)
Theorem C42_starttls_partial : forall reps choose verdict next es a b i, 0 < next ->
  c_trace (run reps choose verdict next es) = a ++ TTls i :: b ->
  exists a1 a2 op v c, a = a1 ++ TSent i op true :: a2 ++ [TGot i v c; TFired i v] /\ tls_request op /\ tls_ok v /\
    forall j, In j (sents a1) -> In j (completions a1).
Proof.
  intros reps choose verdict next es a b i P E. destruct (tls_switch reps choose verdict next P es a b i E) as (a1 & a2 & op & v & c & H1 & H2 & H3 & H4).
  exists a1, a2, op, v, c. auto.
Qed.
Print Assumptions C42_starttls_partial.
(** A message that arrives in the clear, in the same segment as the StartTLS response, is handled
    after the switch; here it answers a request that the user sends when TLS has started. *)
Definition cx_tls : obj := OExtResp 0x58 (VInt 0) (VBytes []) (VBytes []) VNone VNone.
Definition cx_reps_tls (t : list tev) : nat := match rev t with TTls _ :: _ => 1 | _ => 0 end.
Definition cx_es_tls : list cevent := [EMade; EUser UStartTLS; EDue; EData (cx_resp 1 cx_tls ++ cx_resp 2 cx_del)].
Theorem C42_plaintext_refuted : exists reps choose verdict next es p q, 0 < next /\
  (* p ends before and q starts after the end of the StartTLS response; the segment arrived before TLS *)
  es = [EMade; EUser UStartTLS; EDue; EData (p ++ q)] /\
  p = cx_resp 1 cx_tls /\ q = cx_resp 2 cx_del /\
  exists a b v c, c_trace (run reps choose verdict next es) = a ++ TTls 1 :: b /\
    In (TSent 2 (OStr KDelReq 0x4A (B "cn=c")) false) b /\ In (TGot 2 v c) b /\ In (TFired 2 v) b.
Proof.
  exists cx_reps_tls, cx_choose, cx_verdict, 1, cx_es_tls, (cx_resp 1 cx_tls), (cx_resp 2 cx_del).
  split; [reflexivity|]. split; [reflexivity|]. split; [reflexivity|]. split; [reflexivity|].
  exists (firstn 4 (c_trace (run cx_reps_tls cx_choose cx_verdict 1 cx_es_tls))), (skipn 5 (c_trace (run cx_reps_tls cx_choose cx_verdict 1 cx_es_tls))), cx_del, None.
  split; [vm_compute; reflexivity|]. vm_compute. intuition.
Qed.
Print Assumptions C42_plaintext_refuted.
Example C42_case : exists es a b i, c_trace (run cx_reps_tls cx_choose cx_verdict 1 es) = a ++ TTls i :: b /\ sents a = [1; 2].
Proof.
  exists [EMade; EUser (USend KSend (OStr KDelReq 0x4A (B "cn=a")) None); EUser UStartTLS; EData (cx_resp 1 cx_del); EDue; EData (cx_resp 2 cx_tls)].
  eexists. eexists. exists 2. split; [vm_compute; match goal with |- ?l = _ => instantiate (1 := skipn 9 l); instantiate (1 := firstn 8 l) end; vm_compute; reflexivity|]. vm_compute. reflexivity.
Qed.
