(** Model of ProxyBase (ldaptor/protocols/ldap/proxybase.py) on top of BaseLDAPServer
    (ldapserver.py 15-130) and LDAPClient (ldapclient.py 33-221), as a machine driven by the reactor.

    Simplifications:
    - both peers are given as messages, already decoded (C07, C08, C41 are about the octets);
    - handleBeforeForwardRequest and handleProxiedResponse, which users override, depend on their
      arguments only when they give their result at once; both may give a Deferred instead, that fires
      at any later time with any result (handleBeforeForwardRequest then sends its own replies at that
      time); handleBeforeForwardRequest either replies itself or has the request passed on;
    - startTLS towards the proxied server is an event with its outcome (C42 is about what it does);
    - Twisted closes a connection by calling connectionLost later; until then data can arrive;
    - Python's recursion limit is not modelled (replies that wait for each other are sent in a chain
      of calls). *)
From Verif Require Import Base BerModel LdapModel ServerModel ClientModel.

Definition ctrls := option (list (pv * pv * pv)).

(** ** LDAPClient as the proxies use it *)
(** ldapclient.py 39-42, 131: what onwire holds, by message id *)
Record link (A : Type) := mkLink { l_up : bool; l_wire : list (Z * A) }.
Arguments mkLink {A}. Arguments l_up {A}. Arguments l_wire {A}.
Definition wire_has {A} (i : Z) (l : list (Z * A)) : bool := existsb (fun x => fst x =? i) l.
Definition wire_del {A} (i : Z) (l : list (Z * A)) : list (Z * A) := List.filter (fun x => negb (fst x =? i)) l.
(** A request is written; it is registered under the message id but could not be encoded; an exception
    is raised before that. *)
Inductive sent := Written | Stuck (e : exn) | Unsent (e : exn).
(** 83-90, 127-133: send_multiResponse(op, handler, ...): the id after this one, the client *)
Definition send_multi {A} (op : obj) (a : A) (next : Z) (l : link A) : Z * link A * sent :=
  if l_up l then
    if wire_has next (l_wire l) then (next + 1, l, Unsent EAssert)
    else if negb (needs_answer op) then (next + 1, l, Unsent EAssert)
    else
      (next + 1, mkLink true (l_wire l ++ [(next, a)]),
       match toWire (OMessage (class_tag KSeq) (VInt next) op None) with Ok _ => Written | Err e => Stuck e end)
  else (next, l, Unsent ELostConn).
(** 173-183: send_noResponse(op) *)
Definition send_none {A} (op : obj) (next : Z) (l : link A) : Z * sent :=
  if l_up l then
    if wire_has next (l_wire l) then (next + 1, Unsent EAssert)
    else if needs_answer op then (next + 1, Unsent EAssert)
    else (next + 1, match toWire (OMessage (class_tag KSeq) (VInt next) op None) with Ok _ => Written | Err e => Unsent e end)
  else (next, Unsent ELostConn).

(** proxybase.py 176-182; proxy.py 54-60; merger.py 112-118: the response after which the client
    forgets the request *)
Definition last_response (v : obj) : bool :=
  match v with OResult KSearchDone _ _ _ _ _ | OResult KBindResp _ _ _ _ _ => true | _ => false end.

(** ** ProxyBase *)
(** What handleBeforeForwardRequest does: give a request and controls; reply itself and give None;
    raise; give a Deferred *)
Inductive hook := HForward (op : obj) (cs : ctrls) | HBypass (replies : list (option obj)) | HRaise | HLater.
(** What handleProxiedResponse does: give a response (or None), a Deferred, raise *)
Inductive ahook := ANow (v : option obj) | ALater | ARaise.
(** The Deferreds in dseq: waiting, fired, failed *)
Inductive dstate := DWait | DGood (v : option obj) | DBad.
(** dseq: the Deferreds in it, by number; whether replyAndLinkToNextEntry is among the callbacks of
    the first; the request of the client that is answered *)
Record dseq := mkSeq { q_items : list (nat * dstate); q_linked : bool; q_id : pv }.
(** 131-137: the arguments of the handler, and the dseq by the message id *)
Record pslot := mkPSlot { ps_id : pv; ps_op : obj; ps_cs : ctrls }.

(** What can be observed, in order *)
Inductive pev :=
| PGot (id : pv) (op : obj) (cs : ctrls)                  (* a request is handled *)
| PAsk (n : nat) (id : pv) (op : obj) (cs : ctrls)        (* handleBeforeForwardRequest is called, call n *)
| PTold (n : nat) (id : pv) (h : hook)                    (* the result of call n *)
| PForward (b : Z) (op : obj) (cs : ctrls) (id : pv)      (* written to the server under id b, for request id *)
| PReply (id : pv) (v : obj) (b : option Z)               (* written to the client; b: the message it answers *)
| PArrived (b : Z) (n : nat) (v : obj)                    (* response to b, passed to handleProxiedResponse, call n *)
| PHook (n : nat) (r : option (option obj))               (* call n gives a response, or None: fails *)
| PUnbind | PCloseServer                                  (* the connection to the server *)
| PCloseClient | PTls | PLost                             (* the connection to the client *)
| PRaised (e : exn).                                      (* logged, or lost *)

Inductive phase := PhNew | PhConnecting | PhTls | PhDone.
Record pst := mkP {
  p_conn : option bool;                     (* connected *)
  p_phase : phase;                          (* of the connection to the server *)
  p_client : bool;                          (* client is not None *)
  p_link : link pslot;                      (* that client *)
  p_queued : list (pv * obj * ctrls);       (* queuedRequests *)
  p_unbound : bool;
  p_tls : bool;                             (* startTLS_initiated *)
  p_next : Z;                               (* pureldap.next_ldap_message_id *)
  p_seqs : list (Z * dseq);
  p_calls : nat;                            (* calls of handleProxiedResponse *)
  p_asks : nat;                             (* calls of handleBeforeForwardRequest *)
  p_late : list (nat * pv);                 (* those whose Deferred has not fired, with the request's id *)
  p_trace : list pev }.
(** 18-31: a new connection *)
Definition p0 (next : Z) : pst := mkP None PhNew false (mkLink false []) [] false false next [] 0 0 [] [].
Definition emit (e : pev) (s : pst) := mkP (p_conn s) (p_phase s) (p_client s) (p_link s) (p_queued s) (p_unbound s) (p_tls s) (p_next s) (p_seqs s) (p_calls s) (p_asks s) (p_late s) (p_trace s ++ [e]).
Definition with_conn x (s : pst) := mkP x (p_phase s) (p_client s) (p_link s) (p_queued s) (p_unbound s) (p_tls s) (p_next s) (p_seqs s) (p_calls s) (p_asks s) (p_late s) (p_trace s).
Definition with_phase x (s : pst) := mkP (p_conn s) x (p_client s) (p_link s) (p_queued s) (p_unbound s) (p_tls s) (p_next s) (p_seqs s) (p_calls s) (p_asks s) (p_late s) (p_trace s).
Definition with_client x (s : pst) := mkP (p_conn s) (p_phase s) x (p_link s) (p_queued s) (p_unbound s) (p_tls s) (p_next s) (p_seqs s) (p_calls s) (p_asks s) (p_late s) (p_trace s).
Definition with_link x (s : pst) := mkP (p_conn s) (p_phase s) (p_client s) x (p_queued s) (p_unbound s) (p_tls s) (p_next s) (p_seqs s) (p_calls s) (p_asks s) (p_late s) (p_trace s).
Definition with_queued x (s : pst) := mkP (p_conn s) (p_phase s) (p_client s) (p_link s) x (p_unbound s) (p_tls s) (p_next s) (p_seqs s) (p_calls s) (p_asks s) (p_late s) (p_trace s).
Definition with_unbound x (s : pst) := mkP (p_conn s) (p_phase s) (p_client s) (p_link s) (p_queued s) x (p_tls s) (p_next s) (p_seqs s) (p_calls s) (p_asks s) (p_late s) (p_trace s).
Definition with_tls x (s : pst) := mkP (p_conn s) (p_phase s) (p_client s) (p_link s) (p_queued s) (p_unbound s) x (p_next s) (p_seqs s) (p_calls s) (p_asks s) (p_late s) (p_trace s).
Definition with_next x (s : pst) := mkP (p_conn s) (p_phase s) (p_client s) (p_link s) (p_queued s) (p_unbound s) (p_tls s) x (p_seqs s) (p_calls s) (p_asks s) (p_late s) (p_trace s).
Definition with_seqs x (s : pst) := mkP (p_conn s) (p_phase s) (p_client s) (p_link s) (p_queued s) (p_unbound s) (p_tls s) (p_next s) x (p_calls s) (p_asks s) (p_late s) (p_trace s).
Definition with_calls x (s : pst) := mkP (p_conn s) (p_phase s) (p_client s) (p_link s) (p_queued s) (p_unbound s) (p_tls s) (p_next s) (p_seqs s) x (p_asks s) (p_late s) (p_trace s).
Definition with_asks x (s : pst) := mkP (p_conn s) (p_phase s) (p_client s) (p_link s) (p_queued s) (p_unbound s) (p_tls s) (p_next s) (p_seqs s) (p_calls s) x (p_late s) (p_trace s).
Definition with_late x (s : pst) := mkP (p_conn s) (p_phase s) (p_client s) (p_link s) (p_queued s) (p_unbound s) (p_tls s) (p_next s) (p_seqs s) (p_calls s) (p_asks s) x (p_trace s).

(** ldapserver.py 52-58, 89-91: _cbHandle(response, id), queue(id, op) *)
Definition reply (id : pv) (b : option Z) (v : option obj) (s : pst) : pst * res unit :=
  match v with
  | None => (s, Ok tt)
  | Some v =>
      match p_conn s with
      | Some true =>
          match toWire (OMessage (class_tag KMessage) id v None) with
          | Ok _ => (emit (PReply id v b) s, Ok tt)
          | Err e => (s, Err e)
          end
      | _ => (s, Err ELostConn)
      end
  end.
(** a reply whose exception is only logged *)
Definition reply_log (id : pv) (v : obj) (s : pst) : pst :=
  match reply id None (Some v) s with (s', Ok _) => s' | (s', Err e) => emit (PRaised e) s' end.

Section Proxy.
  Variable before : obj -> ctrls -> hook.                  (** handleBeforeForwardRequest(request, controls, reply) *)
  Variable after : obj -> obj -> ctrls -> ahook.           (** handleProxiedResponse(response, request, controls) *)
  Variable use_tls : bool.                                 (** 22: use_tls *)
  Variable options : bool.                                 (** 227: whether the factory has an attribute options *)

  (** replies of handleBeforeForwardRequest *)
  Fixpoint bypass (id : pv) (vs : list (option obj)) (s : pst) : pst :=
    match vs with
    | [] => s
    | v :: r => match reply id None v s with (s', Ok _) => bypass id r s' | (s', Err e) => emit (PRaised e) s' end
    end.
  (** 121-140: forwardit(result, reply), for the result of call n *)
  Definition told (n : nat) (id : pv) (h : hook) (s : pst) : pst :=
    match h with
    | HLater => s
    | HBypass vs => bypass id vs (emit (PTold n id h) s)
    | HRaise => emit (PRaised EType) (emit (PTold n id h) s)
    | HForward op' cs' =>
        let s := emit (PTold n id h) s in
        if p_client s then
          if needs_answer op' then
            match send_multi op' (mkPSlot id op' cs') (p_next s) (p_link s) with
            | (m, l, r) =>
                let b := p_next s in
                let s := with_link l (with_next m s) in
                match r with
                | Written => emit (PForward b op' None id) (with_seqs (p_seqs s ++ [(b, mkSeq [] false id)]) s)
                | Stuck e => emit (PRaised e) (with_seqs (p_seqs s ++ [(b, mkSeq [] false id)]) s)
                | Unsent e => emit (PRaised e) s
                end
            end
          else
            match send_none op' (p_next s) (p_link s) with
            | (m, Written) => emit (PForward (p_next s) op' None id) (with_next m s)
            | (m, Stuck e) | (m, Unsent e) => emit (PRaised e) (with_next m s)
            end
        else emit (PRaised EAttr) s
    end.
  (** 112-145: _forwardRequestToProxiedServer *)
  Definition forward (id : pv) (op : obj) (cs : ctrls) (s : pst) : pst :=
    if p_client s then
      let n := p_asks s in
      let s := emit (PAsk n id op cs) (with_asks (S n) s) in
      match before op cs with
      | HLater => with_late (p_late s ++ [(n, id)]) s
      | h => told n id h s
      end
    else with_queued (p_queued s ++ [(id, op, cs)]) s.
  (** The Deferred that call n gave fires, or fails *)
  Definition told_later (n : nat) (h : hook) (s : pst) : pst :=
    match h, find (fun x => Nat.eqb (fst x) n) (p_late s) with
    | HLater, _ | _, None => s
    | _, Some (_, id) => told n id h (with_late (List.filter (fun x => negb (Nat.eqb (fst x) n)) (p_late s)) s)
    end.

  (** 104-110: _processBacklog; client is not None, so that nothing is queued again *)
  Fixpoint backlog (l : list (pv * obj * ctrls)) (s : pst) : pst :=
    match l with
    | [] => s
    | (id, op, cs) :: r => backlog r (forward id op cs (with_queued r s))
    end.

  (** 80-102: _failedToConnectToProxiedServer: what reply raises ends the loop *)
  Fixpoint refuse (l : list (pv * obj * ctrls)) (s : pst) : pst :=
    match l with
    | [] => emit PCloseClient s
    | (id, op, _) :: r =>
        let s := with_queued r s in
        match op with
        | OBindReq _ _ _ _ =>
            match reply id None (Some (res_obj KBindResp 52 (VBytes []) (VBytes []))) s with
            | (s', Ok _) => refuse r s'
            | (s', Err e) => emit (PRaised e) s'
            end
        | _ => refuse r s
        end
    end.

  (** 162-169: replyAndLinkToNextEntry, called for the first of [items], which has fired; then for
      those after it that have fired *)
  Fixpoint drain (id : pv) (b : Z) (items : list (nat * dstate)) (s : pst) : list (nat * dstate) * bool * pst :=
    match items with
    | (_, DGood v) :: r =>
        match reply id (Some b) v s with
        | (s', Ok _) => drain id b r s'
        | (s', Err e) => (r, false, emit (PRaised e) s')
        end
    | _ => (items, true, s)
    end.
  Fixpoint set_seq (b : Z) (q : dseq) (l : list (Z * dseq)) : list (Z * dseq) :=
    match l with
    | [] => []
    | (i, q') :: r => if i =? b then (i, q) :: r else (i, q') :: set_seq b q r
    end.
  (** the callbacks of the first Deferred of dseq, if it has fired *)
  Definition run_seq (b : Z) (q : dseq) (s : pst) : pst :=
    if q_linked q then
      match drain (q_id q) b (q_items q) s with
      | (items, linked, s') => with_seqs (set_seq b (mkSeq items linked (q_id q)) (p_seqs s')) s'
      end
    else with_seqs (set_seq b q (p_seqs s)) s.
  (** 155-182: _gotResponseFromProxiedServer *)
  Definition got_response (b : Z) (v : obj) (w : pslot) (s : pst) : pst :=
    let n := p_calls s in
    let s := emit (PArrived b n v) (with_calls (S n) s) in
    let '(d, s) := match after v (ps_op w) (ps_cs w) with
                   | ANow r => (DGood r, emit (PHook n (Some r)) s)
                   | ALater => (DWait, s)
                   | ARaise => (DBad, emit (PHook n None) s)
                   end in
    match find (fun x => fst x =? b) (p_seqs s) with
    | None => s
    | Some (_, q) =>
        let items := q_items q ++ [(n, d)] in
        run_seq b (mkSeq items (match items with [_] => true | _ => q_linked q end) (q_id q)) s
    end.
  (** A Deferred that handleProxiedResponse gave fires, or fails *)
  Definition settle (n : nat) (d : dstate) (items : list (nat * dstate)) : list (nat * dstate) :=
    map (fun x => if Nat.eqb (fst x) n then (fst x, match snd x with DWait => d | y => y end) else x) items.
  Definition waits (n : nat) (q : dseq) : bool :=
    existsb (fun x => Nat.eqb (fst x) n && match snd x with DWait => true | _ => false end) (q_items q).
  Definition later (n : nat) (r : option (option obj)) (s : pst) : pst :=
    match find (fun x => waits n (snd x)) (p_seqs s) with
    | None => s
    | Some (b, q) =>
        run_seq b (mkSeq (settle n (match r with Some v => DGood v | None => DBad end) (q_items q)) (q_linked q) (q_id q)) (emit (PHook n r) s)
    end.

  (** 214-252: handleStartTLSRequest *)
  Definition start_tls (id : pv) (s : pst) : pst :=
    if options then
      if p_tls s then reply_log id (ext_obj 1 (VBytes []) VNone) s
      else
        match reply id None (Some (ext_obj 0 (VBytes []) VNone)) s with
        | (s', Ok _) => with_tls true (emit PTls s')
        | (s', Err e) => emit (PRaised e) s'
        end
    else reply_log id (ext_obj 52 (VBytes []) VNone) s.

  (** ldapserver.py 109-127: handle(msg), with the handlers of ProxyBase: 190-200 handleUnknown, 202-212
      handle_LDAPExtendedRequest, 254-260 handle_LDAPUnbindRequest *)
  Definition handle (msg : obj) (s : pst) : pst :=
    match msg with
    | OMessage _ id op cs =>
        match kind_of op with
        | None => emit (PRaised EAssert) s
        | Some k =>
            match id with
            | VInt 0 => s
            | _ =>
                let s := emit (PGot id op cs) s in
                match op with
                | OExtReq _ (VBytes name) _ => if bytes_eqb name starttls_oid then start_tls id s else forward id op cs s
                | ONull KUnbind _ => forward id op cs (with_unbound true s)
                | _ => forward id op cs s
                end
            end
        end
    | _ => emit (PRaised EAttr) s
    end.

  (** ldapclient.py 185-221: a message from the proxied server. What is raised ends dataReceived, and
      Twisted closes that connection. *)
  Definition response (msg : obj) (s : pst) : pst :=
    match msg with
    | OMessage _ id v _ =>
        if is_response v then
          match id with
          | VInt i =>
              if i =? 0 then s
              else
                match find (fun x => fst x =? i) (l_wire (p_link s)) with
                | None => emit (PRaised EKey) s
                | Some (_, w) =>
                    let s := got_response i v w s in
                    if last_response v then with_link (mkLink (l_up (p_link s)) (wire_del i (l_wire (p_link s)))) s else s
                end
          | _ => emit (PRaised EKey) s
          end
        else emit (PRaised EAssert) s
    | _ => emit (PRaised EAttr) s
    end.

  (** What happens *)
  Inductive pevent :=
  | VMade                                     (* the client has connected *)
  | VUp | VDown                               (* the Deferred of clientConnector fires, fails *)
  | VTls (ok : bool)                          (* startTLS towards the server succeeds or fails *)
  | VRequest (msg : obj) | VResponse (msg : obj)
  | VServerLost | VLost                       (* connectionLost of either connection *)
  | VTold (n : nat) (h : hook)                (* a Deferred of handleBeforeForwardRequest *)
  | VLater (n : nat) (r : option (option obj))
  | VOther (n : nat).                         (* message ids taken by others *)
  Definition step (s : pst) (e : pevent) : pst :=
    match e with
    (* 33-46: connectionMade *)
    | VMade => match p_phase s with PhNew => with_phase PhConnecting (with_conn (Some true) s) | _ => s end
    (* 58-75: _connectedToProxiedServer *)
    | VUp =>
        match p_phase s with
        | PhConnecting =>
            let s := with_link (mkLink true []) s in
            if use_tls then with_phase PhTls s
            else
              let s := with_phase PhDone s in
              match p_conn s with
              | Some true => backlog (p_queued s) (with_client true s)
              | _ => with_queued [] (emit PCloseServer s)
              end
        | _ => s
        end
    | VDown => match p_phase s with PhConnecting => refuse (p_queued s) (with_phase PhDone s) | _ => s end
    (* 77-83: _establishedTLS *)
    | VTls ok =>
        match p_phase s with
        | PhTls => let s := with_phase PhDone s in
                   if ok then backlog (p_queued s) (with_client true s) else refuse (p_queued s) s
        | _ => s
        end
    | VRequest msg => match p_conn s with Some true => handle msg s | _ => s end
    | VResponse msg => if l_up (p_link s) then response msg s else s
    (* ldapclient.py 70-77 *)
    | VServerLost => with_link (mkLink false []) s
    (* 48-56: connectionLost *)
    | VLost =>
        match p_conn s with
        | Some true =>
            let s := if p_client s && l_up (p_link s) then
                       if p_unbound s then emit PCloseServer s
                       else with_unbound true (emit PCloseServer (emit PUnbind (with_next (p_next s + 1) s)))
                     else s in
            emit PLost (with_conn (Some false) (with_client false s))
        | _ => s
        end
    | VTold n h => told_later n h s
    | VLater n r => later n r s
    | VOther n => with_next (p_next s + Z.of_nat n) s
    end.
  Definition run (next : Z) (es : list pevent) : pst := fold_left step es (p0 next).
End Proxy.
