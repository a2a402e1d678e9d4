(** Model of LDAPClient (ldaptor/protocols/ldap/ldapclient.py) as a machine driven by the reactor
    and by its user. Twisted (not in /repo): a Deferred runs the callbacks of the user at once
    when it fires, and keeps their exceptions; transport methods do not call back. Deferreds are
    not cancelled by the user. *)
From Verif Require Import Base BerModel LdapModel StreamModel.

(** The tuple stored in self.onwire (32-34, 104, 132, 169): the Deferred is named by the message
    id; [w_tls] says that _cbStartTLS is its first callback (269). *)
Record slot := mkSlot { w_controls : bool; w_handler : bool; w_args : bool; w_tls : bool }.

(** The methods send, send_multiResponse, send_multiResponse_ex (with or without a handler, with or
    without further arguments) and send_noResponse *)
Inductive sendkind := KSend | KMulti (handler args : bool) | KMultiEx (handler args : bool) | KNoResponse.
(** What the user may call; the last is a send without controls *)
Inductive useract := USend (k : sendkind) (op : obj) (controls : option (list (pv * pv * pv))) | UStartTLS.

(** What can be observed, in order *)
Inductive tev :=
| TSent (id : Z) (op : obj) (tls : bool)    (* a request is registered; tls: it is the one of startTLS *)
| TWritten (w : bytes)                      (* transport.write *)
| TRaised (e : exn)                         (* a call of the user raised *)
| TGot (id : Z) (v : obj) (controls : option (list (pv * pv * pv)))   (* a message is handled *)
| TFired (id : Z) (v : obj)                 (* d.callback *)
| TFailed (id : Z)                          (* d.errback *)
| TCalled (id : Z) (v : obj) (r : res bool) (* the handler is called and gives r *)
| TNotice (v : obj)                         (* unsolicitedNotification *)
| TTls (id : Z)                             (* transport.startTLS *)
| TTlsFailed (e : exn)                      (* the Deferred of startTLS fails without a request *)
| TError (e : exn)                          (* an exception leaves dataReceived *)
| TLost.                                    (* connectionLost *)

(** The attributes, pureldap.next_ldap_message_id, and what the reactor and the transport keep:
    calls of _startTLS that are due *)
Record cstate := mkC {
  c_connected : option bool;
  c_onwire : list (Z * slot);
  c_buffer : bytes;
  c_next : Z;
  c_due : nat;
  c_trace : list tev }.
(** 39-42: __init__ *)
Definition c0 (next : Z) : cstate := mkC None [] [] next 0 [].
Definition emit (t : tev) (s : cstate) := mkC (c_connected s) (c_onwire s) (c_buffer s) (c_next s) (c_due s) (c_trace s ++ [t]).
Definition set_onwire (l : list (Z * slot)) (s : cstate) := mkC (c_connected s) l (c_buffer s) (c_next s) (c_due s) (c_trace s).
Definition set_buffer (b : bytes) (s : cstate) := mkC (c_connected s) (c_onwire s) b (c_next s) (c_due s) (c_trace s).
Definition set_connected (b : bool) (s : cstate) := mkC (Some b) (c_onwire s) (c_buffer s) (c_next s) (c_due s) (c_trace s).
Definition set_next (n : Z) (s : cstate) := mkC (c_connected s) (c_onwire s) (c_buffer s) n (c_due s) (c_trace s).
Definition set_due (n : nat) (s : cstate) := mkC (c_connected s) (c_onwire s) (c_buffer s) (c_next s) n (c_trace s).

(** pureldap.py 138-143, 438, 1455: needs_answer *)
Definition needs_answer (op : obj) : bool :=
  match op with ONull KUnbind _ => false | OInt KAbandon _ _ => false | _ => true end.
(** The class LDAPProtocolResponse (pureldap.py 142, 244, 273, 1013) *)
Definition is_response (o : obj) : bool :=
  match o with OSearchRef _ _ | OResult _ _ _ _ _ _ | OExtResp _ _ _ _ _ _ | OSearchEntry _ _ _ => true | _ => false end.

(** LDAPClientConnectionLostException (10-12), LDAPStartTLSBusyError (15-21) *)
Definition ELostConn := EUser 30.
Definition EBusy := EUser 31.
(** 1712, 1738: the oid of StartTLS; 1714-1723 LDAPStartTLSRequest() *)
Definition starttls_oid : bytes := B "1.3.6.1.4.1.1466.20037".
Definition starttls_request : obj := OExtReq (class_tag KExtReq) (VBytes starttls_oid) VNone.

Definition dict_has (i : Z) (l : list (Z * slot)) : bool := existsb (fun x => fst x =? i) l.
Definition dict_del (i : Z) (l : list (Z * slot)) : list (Z * slot) := List.filter (fun x => negb (fst x =? i)) l.

Definition raised (e : exn) (s : cstate) : cstate := emit (TRaised e) s.
(** 83-90 _send; 92-107 send, 134-136 send_multiResponse, 166-171 send_multiResponse_ex,
    173-183 send_noResponse. LDAPMessage() takes the next id (pureldap.py 102-109). If toWire raises,
    the request stays registered. *)
Definition do_send (k : sendkind) (op : obj) (controls : option (list (pv * pv * pv))) (tls : bool) (s : cstate) : cstate :=
  match c_connected s with
  | Some true =>
      let id := c_next s in
      let s := set_next (id + 1) s in
      let controls := match k with KMulti _ _ => None | _ => controls end in
      let msg := OMessage (class_tag KSeq) (VInt id) op controls in
      if dict_has id (c_onwire s) then raised EAssert s
      else
        let answer := match k with KNoResponse => false | _ => true end in
        if negb (Bool.eqb (needs_answer op) answer) then raised EAssert s
        else
          let s := match k with
                   | KSend => emit (TSent id op tls) (set_onwire (c_onwire s ++ [(id, mkSlot false false false tls)]) s)
                   | KMulti h a => emit (TSent id op tls) (set_onwire (c_onwire s ++ [(id, mkSlot false h a tls)]) s)
                   | KMultiEx h a => emit (TSent id op tls) (set_onwire (c_onwire s ++ [(id, mkSlot true h a tls)]) s)
                   | KNoResponse => s
                   end in
          match toWire msg with
          | Ok w => emit (TWritten w) s
          | Err e => raised e s
          end
  | _ => raised ELostConn s
  end.

(** 241-258: startTLS only schedules _startTLS *)
Definition act (a : useract) (s : cstate) : cstate :=
  match a with
  | USend k op controls => do_send k op controls false s
  | UStartTLS => set_due (S (c_due s)) s
  end.

Section Client.
  (** The user. When one of their callbacks or handlers runs after the trace [t], they make
      [reps t] calls, each chosen in view of what has happened so far; then a handler returns or
      raises [verdict t]. Any behaviour is allowed. *)
  Variable reps : list tev -> nat.
  Variable choose : list tev -> option useract.
  Variable verdict : list tev -> res bool.

  Fixpoint user_acts (n : nat) (s : cstate) : cstate :=
    match n with
    | O => s
    | S n => user_acts n (match choose (c_trace s) with Some a => act a s | None => s end)
    end.
  Definition user_runs (s : cstate) : cstate := user_acts (reps (c_trace s)) s.

  (** 226-239: _cbStartTLS(msg, ctx); an exception becomes the result of the Deferred *)
  Definition cbStartTLS (id : Z) (v : obj) (s : cstate) : cstate :=
    match v with
    | OExtResp _ code _ _ name _ =>
        match code with
        | VInt 0 =>
            match name with
            | VNone => emit (TTls id) s
            | VBytes n => if bytes_eqb n starttls_oid then emit (TTls id) s else s
            | VInt _ => s
            end
        | _ => s
        end
    | _ => s
    end.

  (** 185-221: handle(msg) *)
  Definition handle (o : obj) (s : cstate) : cstate * res unit :=
    match o with
    | OMessage _ id v controls =>
        if is_response v then
          match id with
          | VInt i =>
              let s := emit (TGot i v controls) s in
              if i =? 0 then (emit (TNotice v) s, Ok tt)
              else
                match find (fun x => fst x =? i) (c_onwire s) with
                | None => (s, Err EKey)
                | Some (_, w) =>
                    if w_handler w then
                      let s1 := user_runs s in
                      let r := verdict (c_trace s1) in
                      let s2 := emit (TCalled i v r) s1 in
                      match r with
                      | Ok true => (set_onwire (dict_del i (c_onwire s2)) s2, Ok tt)
                      | Ok false => (s2, Ok tt)
                      | Err e => (s2, Err e)
                      end
                    else if w_args w then (s, Err EAssert)
                    else
                      let s1 := emit (TFired i v) s in
                      let s2 := if w_tls w then cbStartTLS i v s1 else s1 in
                      let s3 := user_runs s2 in
                      (set_onwire (dict_del i (c_onwire s3)) s3, Ok tt)
                end
          | _ => (s, Err EKey)
          end
        else (s, Err EAssert)
    | _ => (s, Err EAttr)
    end.

  (** 54-64: the loop of dataReceived. Every iteration consumes bytes. *)
  Fixpoint recv (fuel : nat) (s : cstate) : cstate :=
    match fuel with
    | O => emit (TError EFuel) s
    | S f =>
        match decode ctx_top (c_buffer s) with
        | Err EInsufficient => s
        | Err e => emit (TError e) s
        | Ok (o, n) =>
            let s := set_buffer (zdrop n (c_buffer s)) s in
            match o with
            | None => s
            | Some o =>
                match client_check o with
                | Err e => emit (TError e) s
                | Ok false => s
                | Ok true =>
                    match handle o s with
                    | (s', Ok _) => recv f s'
                    | (s', Err e) => emit (TError e) s'
                    end
                end
            end
        end
    end.
  Definition dataReceived (recd : bytes) (s : cstate) : cstate :=
    let b := c_buffer s ++ recd in recv (S (length b)) (set_buffer b s).

  (** 70-77: the loop of connectionLost: popitem takes the newest entry. [n] is the number of
      entries; none is added while the loop runs, as connected is 0. *)
  Fixpoint fail_all (n : nat) (s : cstate) : cstate :=
    match n with
    | O => s
    | S n =>
        match rev (c_onwire s) with
        | [] => s
        | (i, _) :: r => fail_all n (user_runs (emit (TFailed i) (set_onwire (rev r) s)))
        end
    end.
  Definition connectionLost (s : cstate) : cstate :=
    let s := emit TLost (set_connected false s) in fail_all (length (c_onwire s)) s.

  (** 260-270: _startTLS(ctx), called by the reactor; then the callbacks of the user when it fails *)
  Definition startTLS_now (s : cstate) : cstate :=
    match c_connected s with
    | Some true =>
        match c_onwire s with
        | [] => do_send KSend starttls_request None true s
        | _ => user_runs (emit (TTlsFailed EBusy) s)
        end
    | _ => user_runs (emit (TTlsFailed ELostConn) s)
    end.

  (** What happens: connectionMade (66-68, once), bytes, loss of the connection (once), a call of the
      user, a due call of the reactor, and [n] message ids taken by others *)
  Inductive cevent := EMade | EData (b : bytes) | ELost | EUser (a : useract) | EDue | EOther (n : nat).
  Definition step (s : cstate) (e : cevent) : cstate :=
    match e with
    | EMade => match c_connected s with None => set_connected true s | _ => s end
    | EData b => dataReceived b s
    | ELost => match c_connected s with Some true => connectionLost s | _ => s end
    | EUser a => act a s
    | EDue => match c_due s with O => s | S n => startTLS_now (set_due n s) end
    | EOther n => set_next (c_next s + Z.of_nat n) s
    end.
  Definition run (next : Z) (es : list cevent) : cstate := fold_left step es (c0 next).
End Client.
