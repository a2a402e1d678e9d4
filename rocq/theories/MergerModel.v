(** Model of MergedLDAPServer (ldaptor/protocols/ldap/merger.py 17-161) on top of BaseLDAPServer
    (ldapserver.py 15-130) and LDAPClient (ldapclient.py 33-221): one connection to the merging server and
    its backends, as a machine driven by the reactor.

    Simplifications:
    - all peers are given as messages, already decoded (C07, C08, C41 are about the octets);
    - connecting to a backend includes startTLS where use_tls asks for it (C42 is about what it does);
    - Twisted closes a connection by calling connectionLost later; until then data can arrive. *)
From Verif Require Import Base BerModel LdapModel ServerModel ClientModel ProxyModel.

(** What can be observed, in order; backends are numbered as in configs *)
Inductive mev :=
| MGot (id : pv) (op : obj)                            (* a request is handled *)
| MForward (j : nat) (b : Z) (op : obj) (id : pv)      (* written to backend j under id b, for request id *)
| MArrived (j : nat) (b : Z) (id : pv) (v : obj)       (* response of backend j to b, passed to _gotResponse, for request id *)
| MReply (id : pv) (v : obj)                           (* written to the client *)
| MUnbind (j : nat) | MCloseServer (j : nat)           (* the connection to a backend *)
| MCloseClient | MGone                                 (* the connection to the client *)
| MRaised (e : exn).                                   (* logged, or lost *)

Record mst := mkM {
  m_conn : option bool;                     (* connected; None: not yet *)
  m_tried : list nat;                       (* the connections to backends that have come up or failed *)
  m_links : nat -> link pv;                 (* the clients: the id to reply to, by message id *)
  m_clients : list nat;                     (* clients *)
  m_all : bool;                             (* all_connected *)
  m_map : list (pv * (nat * list obj));     (* merge_map: maxsize and content of the Queue *)
  m_waiting : list (pv * obj);              (* waitingConnect *)
  m_unbound : bool;
  m_next : Z;                               (* pureldap.next_ldap_message_id *)
  m_trace : list mev }.
(** 20-28: a new connection *)
Definition m0 (next : Z) : mst := mkM None [] (fun _ => mkLink false []) [] false [] [] false next [].
Definition memit e (s : mst) := mkM (m_conn s) (m_tried s) (m_links s) (m_clients s) (m_all s) (m_map s) (m_waiting s) (m_unbound s) (m_next s) (m_trace s ++ [e]).
Definition mw_conn x (s : mst) := mkM x (m_tried s) (m_links s) (m_clients s) (m_all s) (m_map s) (m_waiting s) (m_unbound s) (m_next s) (m_trace s).
Definition mw_tried x (s : mst) := mkM (m_conn s) x (m_links s) (m_clients s) (m_all s) (m_map s) (m_waiting s) (m_unbound s) (m_next s) (m_trace s).
Definition mw_link j l (s : mst) := mkM (m_conn s) (m_tried s) (fun k => if Nat.eqb k j then l else m_links s k) (m_clients s) (m_all s) (m_map s) (m_waiting s) (m_unbound s) (m_next s) (m_trace s).
Definition mw_clients x (s : mst) := mkM (m_conn s) (m_tried s) (m_links s) x (m_all s) (m_map s) (m_waiting s) (m_unbound s) (m_next s) (m_trace s).
Definition mw_all x (s : mst) := mkM (m_conn s) (m_tried s) (m_links s) (m_clients s) x (m_map s) (m_waiting s) (m_unbound s) (m_next s) (m_trace s).
Definition mw_map x (s : mst) := mkM (m_conn s) (m_tried s) (m_links s) (m_clients s) (m_all s) x (m_waiting s) (m_unbound s) (m_next s) (m_trace s).
Definition mw_waiting x (s : mst) := mkM (m_conn s) (m_tried s) (m_links s) (m_clients s) (m_all s) (m_map s) x (m_unbound s) (m_next s) (m_trace s).
Definition mw_unbound x (s : mst) := mkM (m_conn s) (m_tried s) (m_links s) (m_clients s) (m_all s) (m_map s) (m_waiting s) x (m_next s) (m_trace s).
Definition mw_next x (s : mst) := mkM (m_conn s) (m_tried s) (m_links s) (m_clients s) (m_all s) (m_map s) (m_waiting s) (m_unbound s) x (m_trace s).

(** 55-62: the body of the loop of _clientQueue, for client j *)
Definition queue_one (j : nat) (id : pv) (op : obj) (s : mst) : mst * res unit :=
  if needs_answer op then
    match send_multi op id (m_next s) (m_links s j) with
    | (n, l, r) =>
        let s' := mw_link j l (mw_next n s) in
        match r with
        | Written => (memit (MForward j (m_next s) op id) s', Ok tt)
        | Stuck e | Unsent e => (s', Err e)
        end
    end
  else
    match send_none op (m_next s) (m_links s j) with
    | (n, Written) => (memit (MForward j (m_next s) op id) (mw_next n s), Ok tt)
    | (n, Stuck e) | (n, Unsent e) => (mw_next n s, Err e)
    end.
(** 55-62: _clientQueue, called through maybeDeferred: what it raises ends the loop, and is lost *)
Fixpoint queue_all (js : list nat) (id : pv) (op : obj) (s : mst) : mst :=
  match js with
  | [] => s
  | j :: r => match queue_one j id op s with (s', Ok _) => queue_all r id op s' | (s', Err e) => memit (MRaised e) s' end
  end.
(** 30-36, 119-126: handleUnknown, _handleUnknown, _whenConnected *)
Definition m_when (id : pv) (op : obj) (s : mst) : mst :=
  if m_all s then queue_all (m_clients s) id op s else mw_waiting (m_waiting s ++ [(id, op)]) s.
(** 50-53: the loop of _cbConnectionMade *)
Fixpoint m_release (l : list (pv * obj)) (s : mst) : mst :=
  match l with
  | [] => s
  | (id, op) :: r => m_release r (queue_all (m_clients s) id op (mw_waiting r s))
  end.

(** ldapserver.py 52-58: BaseLDAPServer.queue(id, op) *)
Definition base_queue (id : pv) (v : obj) (s : mst) : mst * res unit :=
  match m_conn s with
  | Some true =>
      match toWire (OMessage (class_tag KMessage) id v None) with
      | Ok _ => (memit (MReply id v) s, Ok tt)
      | Err e => (s, Err e)
      end
  | _ => (s, Err ELostConn)
  end.
(** 74-77: the loop that picks the response; r.resultCode == Success.resultCode *)
Definition m_success (v : obj) : bool := match v with OResult _ _ (VInt c) _ _ _ => c =? 0 | _ => false end.
Fixpoint pick (l : list obj) (v : obj) : obj := match l with [] => v | r :: l => pick l (if m_success r then r else v) end.
(** pv as a key of a dict *)
Definition key_eqb (a b : pv) : bool :=
  match a, b with VNone, VNone => true | VInt x, VInt y => x =? y | VBytes x, VBytes y => bytes_eqb x y | _, _ => false end.
Fixpoint map_get (k : pv) (l : list (pv * (nat * list obj))) : option (nat * list obj) :=
  match l with [] => None | (i, q) :: r => if key_eqb i k then Some q else map_get k r end.
Definition map_del (k : pv) (l : list (pv * (nat * list obj))) := List.filter (fun x => negb (key_eqb (fst x) k)) l.
Definition map_set (k : pv) (q : nat * list obj) (l : list (pv * (nat * list obj))) := (k, q) :: map_del k l.
(** Queue.full(): 0 < maxsize <= qsize *)
Definition q_full (q : nat * list obj) : bool := Nat.ltb 0 (fst q) && Nat.leb (fst q) (length (snd q)).
(** 64-81: queue(id, op). Queue.put would wait on a full Queue, but it is emptied as soon as it is full;
    the loop of get takes as many as there are clients (fewer only when connectionLost has emptied that
    list). *)
Definition m_queue (id : pv) (v : obj) (s : mst) : mst * res unit :=
  if last_response v then
    let q := match map_get id (m_map s) with None => (length (m_clients s), [v]) | Some (n, l) => (n, l ++ [v]) end in
    if q_full q then base_queue id (pick (firstn (length (m_clients s)) (snd q)) v) (mw_map (map_del id (m_map s)) s)
    else (mw_map (map_set id q (m_map s)) s, Ok tt)
  else base_queue id v s.

(** ldapserver.py 109-127: handle(msg), with the handlers of 128-161 *)
Definition m_handle (msg : obj) (s : mst) : mst :=
  match msg with
  | OMessage _ id op _ =>
      match kind_of op with
      | None => memit (MRaised EAssert) s
      | Some k =>
          match id with
          | VInt 0 => s
          | _ =>
              let s := memit (MGot id op) s in
              match k with
              | RDelete | RAdd | RModifyDN | RModify | RExtended =>
                  match m_queue id (fail_obj k 53 (VBytes [])) s with
                  | (s', Ok _) => s'
                  | (s', Err e) => memit (MRaised e) s'
                  end
              | RUnbind => m_when id op (mw_unbound true s)
              | RBind | RSearch | RCompare | RAbandon => m_when id op s
              end
          end
      end
  | _ => memit (MRaised EAttr) s
  end.
(** 107-117: _gotResponse; ldapclient.py 185-221: a message from backend j. What is raised ends
    dataReceived, and Twisted closes that connection; the request stays registered. *)
Definition m_response (j : nat) (msg : obj) (s : mst) : mst :=
  match msg with
  | OMessage _ id v _ =>
      if is_response v then
        match id with
        | VInt i =>
            if i =? 0 then s
            else
              match find (fun x => fst x =? i) (l_wire (m_links s j)) with
              | None => memit (MRaised EKey) s
              | Some (_, rid) =>
                  match m_queue rid v (memit (MArrived j i rid v) s) with
                  | (s', Err e) => memit (MRaised e) s'
                  | (s', Ok _) => if last_response v then mw_link j (mkLink (l_up (m_links s' j)) (wire_del i (l_wire (m_links s' j)))) s' else s'
                  end
              end
        | _ => memit (MRaised EKey) s
        end
      else memit (MRaised EAssert) s
  | _ => memit (MRaised EAttr) s
  end.
(** 94-101: the loop of connectionLost *)
Fixpoint m_close (js : list nat) (s : mst) : mst :=
  match js with
  | [] => s
  | j :: r =>
      m_close r (if l_up (m_links s j) then
                   if m_unbound s then memit (MCloseServer j) s
                   else memit (MCloseServer j) (memit (MUnbind j) (mw_next (m_next s + 1) s))
                 else s)
  end.

(** What happens *)
Inductive mevent :=
| MMade                                     (* the client has connected *)
| MUp (j : nat) | MDown (j : nat)           (* the Deferred of connect for backend j fires, fails *)
| MRequest (msg : obj) | MResponse (j : nat) (msg : obj)
| MServerLost (j : nat) | MLost             (* connectionLost of either connection *)
| MOther (n : nat).                         (* message ids taken by others *)
Section Merger.
  Variable configs tls : nat.               (** len(configs), len(use_tls) *)
  (** 85: zip: the connections that are tried *)
  Definition tries (s : mst) (j : nat) : bool :=
    match m_conn s with None => false | _ => Nat.ltb j (Nat.min configs tls) && negb (existsb (Nat.eqb j) (m_tried s)) end.
  Definition mstep (s : mst) (e : mevent) : mst :=
    match e with
    (* 83-92: connectionMade *)
    | MMade => match m_conn s with None => mw_conn (Some true) s | _ => s end
    (* 42-53: _cbConnectionMade *)
    | MUp j =>
        if tries s j then
          let s := mw_clients (m_clients s ++ [j]) (mw_link j (mkLink true []) (mw_tried (j :: m_tried s) s)) in
          let s := if Nat.eqb (length (m_clients s)) configs then mw_all true s else s in
          if m_all s then m_release (m_waiting s) s else s
        else s
    (* 38-40: _failConnection *)
    | MDown j => if tries s j then memit (MRaised (ELdap 80)) (memit MCloseClient (mw_tried (j :: m_tried s) s)) else s
    | MRequest msg => match m_conn s with Some true => m_handle msg s | _ => s end
    | MResponse j msg => if l_up (m_links s j) then m_response j msg s else s
    (* ldapclient.py 70-77 *)
    | MServerLost j => mw_link j (mkLink false []) s
    (* 94-105: connectionLost *)
    | MLost =>
        match m_conn s with
        | Some true => memit MGone (mw_conn (Some false) (mw_unbound true (mw_clients [] (m_close (m_clients s) s))))
        | _ => s
        end
    | MOther n => mw_next (m_next s + Z.of_nat n) s
    end.
  Definition mrun (next : Z) (es : list mevent) : mst := fold_left mstep es (m0 next).
End Merger.
