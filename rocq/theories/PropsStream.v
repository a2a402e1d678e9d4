(** Property theorems for the receive loops: C06, C07, C08. *)
From Verif Require Import BaseFacts BerModel BerSpec BerProofs LdapModel LdapSpec LdapProofs
  StreamModel StreamSpec StreamProofs.

(** C06, for the buffers a conforming peer leaves: cut the encoding of any request anywhere;
    the first part waits, and the second part makes exactly that request come out. *)
Theorem C06_insufficient_data_partial :
  forall (handle : obj -> res unit) (id : Z) (r : request) (cs : option (list control)) (w p t : bytes),
  (forall o, handle o = Ok tt) ->
  toWire (message_obj id (request_obj r) cs) = Ok w -> w = p ++ t -> t <> [] ->
  dataReceived server_check handle (Waiting []) p = ([], Waiting p) /\
  exists o, dataReceived server_check handle (Waiting p) t = ([o], Waiting []) /\
            read_message read_request o = Some (id, seen_request r, cs).
Proof. exact message_completes. Qed.
Print Assumptions C06_insufficient_data_partial.
(** The full statement is false: an indefinite length, and an inner element longer than its
    message, leave the connection waiting whatever arrives afterwards. *)
Theorem C06_indefinite_length_refuted :
  forall (check : obj -> res bool) (handle : obj -> res unit) (segments : list bytes),
  fst (receive check handle (Waiting [x30; x80]) segments) = [] /\
  exists b, snd (receive check handle (Waiting [x30; x80]) segments) = Waiting b.
Proof. intros check handle. exact (stuck_forever check handle _ (indefinite_stuck check handle)). Qed.
Print Assumptions C06_indefinite_length_refuted.
Theorem C06_inner_length_refuted :
  forall (check : obj -> res bool) (handle : obj -> res unit) (segments : list bytes),
  fst (receive check handle (Waiting [x30; x03; x02; x05; x01]) segments) = [] /\
  exists b, snd (receive check handle (Waiting [x30; x03; x02; x05; x01]) segments) = Waiting b.
Proof. intros check handle. exact (stuck_forever check handle _ (overrun_stuck check handle)). Qed.
Print Assumptions C06_inner_length_refuted.
Example C06_case : exists w, toWire (message_obj 7 (request_obj (Delete (B "cn=a"))) None) = Ok w
  /\ w = firstn 5 w ++ skipn 5 w /\ skipn 5 w <> [] /\ firstn 5 w <> [].
Proof. eexists. split; [vm_compute; reflexivity|]. vm_compute. repeat split; congruence. Qed.

(** C07, for streams whose top-level elements are all SEQUENCEs: the handled objects, the
    exception if any, and the bytes left over do not depend on how the stream is cut. *)
Theorem C07_segmentation_server_partial :
  forall (handle : obj -> res unit) (segments : list bytes),
  only_messages (concat segments) ->
  receive server_check handle (Waiting []) segments =
  dataReceived server_check handle (Waiting []) (concat segments).
Proof. exact server_segmentation. Qed.
Print Assumptions C07_segmentation_server_partial.
Theorem C07_segmentation_client_partial :
  forall (handle : obj -> res unit) (segments : list bytes),
  only_messages (concat segments) ->
  receive client_check handle (Waiting []) segments =
  dataReceived client_check handle (Waiting []) (concat segments).
Proof. exact client_segmentation. Qed.
Print Assumptions C07_segmentation_client_partial.
(** The full statement is false: an unknown top-level element ends the loop, and the message
    after it waits unless it arrives in a segment of its own. *)
Theorem C07_segmentation_refuted :
  exists (a b : bytes), forall handle, (forall o, handle o = Ok tt) ->
  fst (receive server_check handle (Waiting []) [a; b]) <>
  fst (receive server_check handle (Waiting []) [a ++ b]).
Proof.
  exists [x3f; x00], [x30; x05; x02; x01; x01; x42; x00]. intros handle H.
  vm_compute. rewrite H. congruence.
Qed.
Print Assumptions C07_segmentation_refuted.
Definition c07_stream : list bytes := [[x30; x05; x02; x01; x01; x42; x00]; [x30; x05; x02; x01; x02; x42; x00]].
Example C07_case : only_messages (concat c07_stream) /\
  length (fst (dataReceived server_check (fun _ => Ok tt) (Waiting []) (concat c07_stream))) = 2%nat.
Proof.
  split; [apply only_messages_concat|vm_compute; reflexivity].
  repeat constructor; eexists; vm_compute; reflexivity.
Qed.

(** C08: any list of encodable messages, in any segmentation, comes out complete, in order,
    with nothing left over. [seen_request] and [seen_response] change only present but empty SASL
    credentials, whose wire form C09 and C10 describe. *)
Theorem C08_pipelined_requests :
  forall (handle : obj -> res unit) (ms : list (Z * request * option (list control)))
         (ws segments : list bytes),
  (forall o, handle o = Ok tt) ->
  Forall2 (fun '(i, r, cs) w => toWire (message_obj i (request_obj r) cs) = Ok w) ms ws ->
  concat segments = concat ws ->
  exists os, receive server_check handle (Waiting []) segments = (os, Waiting []) /\
             requests_read os = map (fun '(i, r, cs) => Some (i, seen_request r, cs)) ms.
Proof. exact server_receives. Qed.
Print Assumptions C08_pipelined_requests.
Theorem C08_pipelined_responses :
  forall (handle : obj -> res unit) (ms : list (Z * response * option (list control)))
         (ws segments : list bytes),
  (forall o, handle o = Ok tt) ->
  Forall2 (fun '(i, r, cs) w => toWire (message_obj i (response_obj r) cs) = Ok w) ms ws ->
  concat segments = concat ws ->
  exists os, receive client_check handle (Waiting []) segments = (os, Waiting []) /\
             responses_read os = map (fun '(i, r, cs) => Some (i, seen_response r, cs)) ms.
Proof. exact client_receives. Qed.
Print Assumptions C08_pipelined_responses.
Example C08_case : exists ws, Forall2 (fun '(i, r, cs) w =>
    toWire (message_obj i (request_obj r) cs) = Ok w)
    [(1, Bind 3 (B "cn=a") (Simple (B "pw")), None); (2, Delete (B "cn=b"), None); (3, Unbind, None)] ws
  /\ concat ws = concat (map (fun b => [b]) (concat ws)).
Proof.
  eexists. split.
  - repeat (constructor; [vm_compute; reflexivity|]). constructor.
  - vm_compute. reflexivity.
Qed.
