(** Model of Proxy (ldaptor/protocols/ldap/proxy.py 1-96) on top of BaseLDAPServer (ldapserver.py
    15-130) and LDAPClient (ldapclient.py 33-221): any number of connections to one proxy, which share
    the list waitingConnect, as a machine driven by the reactor.

    Simplifications:
    - all peers are given as messages, already decoded (C07, C08, C41 are about the octets);
    - the message ids are those of one process: pureldap.next_ldap_message_id is shared;
    - Twisted closes a connection by calling connectionLost later; until then data can arrive. *)
From Verif Require Import Base BerModel LdapModel ServerModel ClientModel ProxyModel.

(** What can be observed, in order; the first argument is the connection *)
Inductive sev :=
| SGot (c : nat) (id : pv) (op : obj)                 (* a request is handled *)
| SForward (c : nat) (b : Z) (op : obj) (id : pv)     (* written to the server under id b, for request id *)
| SReply (c : nat) (id : pv) (v : obj) (b : Z)        (* written to the client; b: the message it answers *)
| SArrived (c : nat) (b : Z) (v : obj)                (* response to b, passed to _gotResponse *)
| SUnbind (c : nat) | SCloseServer (c : nat)          (* the connection to the server *)
| SGone (c : nat)                                     (* the client has gone *)
| SRaised (c : nat) (e : exn).                        (* logged, or lost *)

(** One connection: 11-13, ldapserver.py 43-50 *)
Record sconn := mkC {
  sc_phase : phase;             (* of the connection to the server *)
  sc_conn : bool;               (* connected *)
  sc_open : bool;               (* the client is there *)
  sc_client : bool;             (* client is not None *)
  sc_link : link pv;            (* that client: the id to reply to, by message id *)
  sc_unbound : bool }.
(** 15-23: a new connection *)
Definition c0 : sconn := mkC PhNew false false false (mkLink false []) false.
Record sst := mkS {
  s_conns : nat -> sconn;
  s_waiting : list (nat * (pv * obj));      (* 12: waitingConnect: the instance that fn is bound to, a *)
  s_next : Z;                               (* pureldap.next_ldap_message_id *)
  s_trace : list sev }.
(** A process in which no connection has been made *)
Definition s0 (next : Z) : sst := mkS (fun _ => c0) [] next [].
Definition upd (c : nat) (x : sconn) (f : nat -> sconn) : nat -> sconn := fun d => if Nat.eqb d c then x else f d.
Definition semit (e : sev) (s : sst) := mkS (s_conns s) (s_waiting s) (s_next s) (s_trace s ++ [e]).
Definition with_sconn (c : nat) (x : sconn) (s : sst) := mkS (upd c x (s_conns s)) (s_waiting s) (s_next s) (s_trace s).
Definition with_waiting x (s : sst) := mkS (s_conns s) x (s_next s) (s_trace s).
Definition with_snext x (s : sst) := mkS (s_conns s) (s_waiting s) x (s_trace s).
Definition set_link l (x : sconn) := mkC (sc_phase x) (sc_conn x) (sc_open x) (sc_client x) l (sc_unbound x).
Definition set_phase p (x : sconn) := mkC p (sc_conn x) (sc_open x) (sc_client x) (sc_link x) (sc_unbound x).
Definition set_unbound u (x : sconn) := mkC (sc_phase x) (sc_conn x) (sc_open x) (sc_client x) (sc_link x) u.

(** 40-46: _clientQueue, called through maybeDeferred: what it raises is lost *)
Definition client_queue (c : nat) (id : pv) (op : obj) (s : sst) : sst :=
  let x := s_conns s c in
  if sc_client x then
    if needs_answer op then
      match send_multi op id (s_next s) (sc_link x) with
      | (n, l, r) =>
          let s' := with_sconn c (set_link l x) (with_snext n s) in
          match r with
          | Written => semit (SForward c (s_next s) op id) s'
          | Stuck e | Unsent e => semit (SRaised c e) s'
          end
      end
    else
      match send_none op (s_next s) (sc_link x) with
      | (n, Written) => semit (SForward c (s_next s) op id) (with_snext n s)
      | (n, Stuck e) | (n, Unsent e) => semit (SRaised c e) (with_snext n s)
      end
  else semit (SRaised c EAttr) s.
(** 25-31, 85-92: handleUnknown, _handleUnknown, _whenConnected *)
Definition when_connected (c : nat) (id : pv) (op : obj) (s : sst) : sst :=
  if sc_client (s_conns s c) then client_queue c id op s
  else with_waiting (s_waiting s ++ [(c, (id, op))]) s.
(** 35-38: the loop of _cbConnectionMade; nothing is appended meanwhile *)
Fixpoint release (l : list (nat * (pv * obj))) (s : sst) : sst :=
  match l with
  | [] => s
  | (d, (id, op)) :: r => release r (client_queue d id op (with_waiting r s))
  end.

(** ldapserver.py 52-58, 89-91: _cbHandle(response, id), queue(id, op). What is written to a transport
    that is closed goes nowhere. *)
Definition sreply (c : nat) (id : pv) (b : Z) (v : obj) (s : sst) : sst * res unit :=
  let x := s_conns s c in
  if sc_conn x then
    match toWire (OMessage (class_tag KMessage) id v None) with
    | Ok _ => (if sc_open x then semit (SReply c id v b) s else s, Ok tt)
    | Err e => (s, Err e)
    end
  else (s, Err ELostConn).

(** ldapserver.py 109-127: handle(msg); 85-96: every request goes to handleUnknown *)
Definition shandle (c : nat) (msg : obj) (s : sst) : sst :=
  match msg with
  | OMessage _ id op _ =>
      match kind_of op with
      | None => semit (SRaised c EAssert) s
      | Some _ =>
          match id with
          | VInt 0 => s
          | _ =>
              let s := semit (SGot c id op) s in
              match op with
              | ONull KUnbind _ => when_connected c id op (with_sconn c (set_unbound true (s_conns s c)) s)
              | _ => when_connected c id op s
              end
          end
      end
  | _ => semit (SRaised c EAttr) s
  end.
(** 48-58: _gotResponse; ldapclient.py 185-221: a message from the proxied server. What is raised ends
    dataReceived, and Twisted closes that connection; the request stays registered. *)
Definition sresponse (c : nat) (msg : obj) (s : sst) : sst :=
  match msg with
  | OMessage _ id v _ =>
      if is_response v then
        match id with
        | VInt i =>
            if i =? 0 then s
            else
              match find (fun x => fst x =? i) (l_wire (sc_link (s_conns s c))) with
              | None => semit (SRaised c EKey) s
              | Some (_, rid) =>
                  match sreply c rid i v (semit (SArrived c i v) s) with
                  | (s', Err e) => semit (SRaised c e) s'
                  | (s', Ok _) =>
                      let x := s_conns s' c in
                      if last_response v then with_sconn c (set_link (mkLink (l_up (sc_link x)) (wire_del i (l_wire (sc_link x)))) x) s' else s'
                  end
              end
        | _ => semit (SRaised c EKey) s
        end
      else semit (SRaised c EAssert) s
  | _ => semit (SRaised c EAttr) s
  end.

(** What happens *)
Inductive sevent :=
| SMade (c : nat)                             (* the client has connected *)
| SUp (c : nat) | SDown (c : nat)             (* the Deferred of connect fires, fails *)
| SRequest (c : nat) (msg : obj) | SResponse (c : nat) (msg : obj)
| SServerLost (c : nat) | SLost (c : nat)     (* connectionLost of either connection *)
| SOther (n : nat).                           (* message ids taken by others *)
Definition sstep (s : sst) (e : sevent) : sst :=
  match e with
  (* 64-72: connectionMade *)
  | SMade c =>
      let x := s_conns s c in
      match sc_phase x with
      | PhNew => with_sconn c (mkC PhConnecting true true (sc_client x) (sc_link x) (sc_unbound x)) s
      | _ => s
      end
  (* 33-38: _cbConnectionMade *)
  | SUp c =>
      let x := s_conns s c in
      match sc_phase x with
      | PhConnecting => release (s_waiting s) (with_sconn c (mkC PhDone (sc_conn x) (sc_open x) true (mkLink true []) (sc_unbound x)) s)
      | _ => s
      end
  (* 60-62: _failConnection *)
  | SDown c =>
      match sc_phase (s_conns s c) with
      | PhConnecting => semit (SRaised c ELostConn) (with_sconn c (set_phase PhDone (s_conns s c)) s)
      | _ => s
      end
  | SRequest c msg => if sc_open (s_conns s c) then shandle c msg s else s
  | SResponse c msg => if l_up (sc_link (s_conns s c)) then sresponse c msg s else s
  (* ldapclient.py 70-77 *)
  | SServerLost c => with_sconn c (set_link (mkLink false []) (s_conns s c)) s
  (* 74-83: connectionLost *)
  | SLost c =>
      let x := s_conns s c in
      if sc_open x then
        if sc_client x then
          let s := if l_up (sc_link x) then
                     if sc_unbound x then semit (SCloseServer c) s
                     else semit (SCloseServer c) (semit (SUnbind c) (with_snext (s_next s + 1) s))
                   else s in
          semit (SGone c) (with_sconn c (mkC (sc_phase x) false false false (sc_link x) (if l_up (sc_link x) then true else sc_unbound x)) s)
        else
          semit (SGone c) (semit (SRaised c EAssert) (with_sconn c (mkC (sc_phase x) (sc_conn x) false (sc_client x) (sc_link x) (sc_unbound x)) s))
      else s
  | SOther n => with_snext (s_next s + Z.of_nat n) s
  end.
Definition srun (s : sst) (es : list sevent) : sst := fold_left sstep es s.
