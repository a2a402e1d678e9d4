(** Model of ldaptor/protocols/ldap/ldapserver.py (BaseLDAPServer, LDAPServer) in front of a directory
    that answers later: lookup, bind, search, delete, addChild, move, patch and commit give Deferreds, which
    fire in any order, and other requests are handled meanwhile. (ServerModel is the same server in front
    of the in-memory directory, whose Deferreds have fired when they are given.)

    Simplifications:
    - the messages are given already decoded, and come while the connection is up;
    - the directory is not modelled: what its Deferreds give, and when, is an input; it hands out
      entries (here numbers) whose names, too, are given with each event; its methods give a Deferred
      and do not raise themselves; a Deferred that fires at once is one whose firing comes next;
    - a password change, setPassword (501) followed by commit (502), is one call of the directory, and so
      are the lookup and the changes of ModifyOp.patch (delta.py 180-192);
    - an integer that a hostile client sends in place of octets is reported as TypeError. *)
From Verif Require Import Base BerModel LdapModel LdapSpec Utf8Model DnModel EntryModel DeltaModel MatchModel
  UtilModel LdifModel PwModel InmemModel ServerModel.

(** An entry that the directory has handed out *)
Definition ent := nat.

(** The calls of the directory: 154, 249, 313, 327, 353, 386 lookup; 166 bind; 226 and 272 search;
    330 delete; 356 addChild; 389 move; 406 patch; 409 commit; 501-502 setPassword and commit *)
Inductive call :=
| CLookup (d : dn)
| CBind (e : ent) (auth : bauth)
| CSearch (e : ent) (f : obj) (attrs : list pv) (scope deref size time types : pv)
| CCompare (e : ent) (f : obj)
| CDelete (e : ent)
| CAdd (e : ent) (rdn : str) (attrs : list (pyval * list pyval))
| CMove (e : ent) (to : dn)
| CPatch (d : dn) (ms : list delta)
| CCommit (e : ent)
| CPassword (e : ent) (new : bytes).

(** What a Deferred of the directory gives: an entry, or another true value; None, or another false
    one; or a failure with its message *)
Inductive dres := DOk (o : option ent) | DErr (x : exn) (msg : pv).

(** The callbacks that wait on a Deferred of the directory, with what they have in their closures *)
Inductive stage :=
| GBind (auth : bauth)                                                          (** 160, 179 *)
| GBound                                                                        (** 176 *)
| GSearch (f : obj) (attrs : list pv) (scope deref size time types : pv)        (** 314-317 *)
| GFound (attrs : list pv)                                                      (** 288 *)
| GCompare (ava : obj)                                                          (** 250-253 *)
| GCompared                                                                     (** 232 *)
| GDelete | GDeleted                                                            (** 336, 337 *)
| GAdd (rdn : str) (attrs : list (pyval * list pyval)) | GAdded                 (** 362, 363 *)
| GMove (to : dn) | GMoved                                                      (** 395, 396 *)
| GPatch | GCommit                                                              (** 414, 415 *)
| GPassword (name : bytes).                                                     (** 446, 513 *)

(** What a handler, or a callback, comes to: who is bound from now on, if it says so; an entry that it
    sends; whether it asks for the connection to be closed; and then a further call, a result, or an
    exception with its message *)
Inductive fin := Call (c : call) (g : stage) | Give (o : option obj) | Fail (x : exn) (msg : pv).
Record next := mkNext { n_bound : option (option ent); n_reply : option obj; n_close : bool; n_fin : fin }.
Definition go (f : fin) : next := mkNext None None false f.

(** What happens, and to which request (by its number): *)
Inductive tev :=
| TMade | TLost                                    (** 44-50: the connection *)
| TCrash (x : exn)                                 (** an exception leaves dataReceived *)
| TNotice (op : obj)                               (** 60: an unsolicited notification *)
| TGot (k : nat) (id : pv) (req : obj) (cs : option (list (pv * pv * pv))) (names : ent -> dn)
                                                   (** request [k] comes, with controls; the names at the time *)
| TCall (n k : nat) (c : call)                     (** call [n] of the directory *)
| TFired (n : nat) (r : dres)                      (** the Deferred of call [n] fires *)
| TWrite (k : nat) (id : pv) (op : obj) (b : bytes) (** a message is written *)
| TRefused (k : nat) (x : exn)                     (** an entry is not written: an exception in the search *)
| TUnsent (k : nat) (op : obj) (x : exn)           (** 129: a result is not written: an exception is logged *)
| TClose (k : nat).                                (** 186: transport.loseConnection() *)

(** 52-53: LDAPServerConnectionLostException *)
Definition EGone := EUser 75.

(** 16, 44-50: no connection yet, a connection, a connection that was lost *)
Inductive conn := CNew | CUp | CGone.
(** A Deferred that is waited on: the request's number, id and kind, and the callbacks *)
Record wait := mkWait { w_req : nat; w_id : pv; w_kind : rkind; w_stage : stage }.
(** The state: [l_cbs] are the callbacks that searches were given *)
Record late := mkLate {
  l_conn : conn; l_bound : option ent; l_reqs : nat; l_calls : nat;
  l_wait : list (nat * wait); l_cbs : list (nat * (nat * pv * list pv)); l_trace : list tev }.
Definition late_0 : late := mkLate CNew None 0 0 [] [] [].
Definition emit (e : tev) (s : late) : late :=
  mkLate (l_conn s) (l_bound s) (l_reqs s) (l_calls s) (l_wait s) (l_cbs s) (l_trace s ++ [e]).

(** What comes: the connection is made or lost; a message; the Deferred of a call fires; a search
    calls back with an entry. [names] are the names that the entries have at the time. *)
Inductive levent :=
| EMade | ELost
| EMessage (m : obj) (names : ent -> dn)
| EFired (n : nat) (r : dres) (names : ent -> dn)
| EEntry (n : nat) (e : entry).

Section Late.
  Variable lower : str -> str.                   (** str.lower() *)
  Variable io : Z -> Z -> res Z.                 (** int(two characters, 16), see DnModel *)
  Variable oc_first : bool.                      (** iteration order of a set of keys, see LdifModel *)
  Variable text : exn -> bytes.                  (** the message of an exception: anything *)
  Variable root : ent.                           (** IConnectedLDAPEntry(self.factory) *)

  Definition fails (x : exn) : fin := Fail x (VBytes (text x)).
  (** a step that may raise, in a handler *)
  Definition attempt {A} (r : res A) (k : A -> next) : next :=
    match r with Ok a => k a | Err x => go (fails x) end.
  Definition done (k : cls) : fin := Give (Some (res_obj k 0 (VBytes []) (VBytes []))).

  (** 139-181: handle_LDAPBindRequest *)
  Definition late_bind (version dn : pv) (auth : bauth) (cs : option (list (pv * pv * pv))) : next :=
    match version with
    | VInt 3 =>
        attempt (checkControls cs) (fun _ =>
        match dn with
        | VBytes [] => mkNext (Some None) None false (done KBindResp)
        | _ => attempt (to_dn io dn) (fun d => go (Call (CLookup d) (GBind auth)))
        end)
    | VInt _ => go (fails (ELdap 2))
    | _ => go (fails EType)
    end.
  (** 188-205, 302-318: getRootDSE, handle_LDAPSearchRequest *)
  Definition late_search (names : ent -> dn) (base scope deref size time types : pv) (f : obj) (attrs : list pv)
      (cs : option (list (pv * pv * pv))) : next :=
    attempt (checkControls cs) (fun _ =>
    attempt (match base, scope with VBytes [], VInt 0 => is_match_all f | _, _ => Ok false end) (fun dse =>
    if dse then mkNext None (Some (root_dse (names root))) false (done KSearchDone)
    else attempt (to_dn io base) (fun d => go (Call (CLookup d) (GSearch f attrs scope deref size time types))))).
  (** 245-254: handle_LDAPCompareRequest *)
  Definition late_compare (dn : pv) (ava : obj) (cs : option (list (pv * pv * pv))) : next :=
    attempt (checkControls cs) (fun _ => attempt (to_dn io dn) (fun d => go (Call (CLookup d) (GCompare ava)))).
  (** 322-338: handle_LDAPDelRequest *)
  Definition late_delete (dn : pv) (cs : option (list (pv * pv * pv))) : next :=
    attempt (checkControls cs) (fun _ => attempt (to_dn io dn) (fun d => go (Call (CLookup d) GDelete))).
  (** 342-364: handle_LDAPAddRequest *)
  Definition late_add (dn : pv) (attrs : obj) (cs : option (list (pv * pv * pv))) : next :=
    attempt (checkControls cs) (fun _ => attempt (add_attrs attrs) (fun a => attempt (to_dn io dn) (fun d =>
    match d with
    | [] => go (fails EIndex)
    | rd :: up => go (Call (CLookup up) (GAdd (rdn_text rd) a))
    end))).
  (** 368-397: handle_LDAPModifyDNRequest *)
  Definition late_modify_dn (dn newrdn del newSup : pv) (cs : option (list (pv * pv * pv))) : next :=
    attempt (checkControls cs) (fun _ => attempt (to_dn io dn) (fun d =>
    attempt (match newrdn with VBytes b => do t <- utf8_decode b; parse_rdn io t | _ => Err EType end) (fun nrd =>
    if negb (truthy del) then go (fails (ELdap 53))
    else attempt (match newSup with VNone => Ok (dn_up d) | _ => to_dn io newSup end) (fun sup =>
         go (Call (CLookup d) (GMove (nrd :: sup))))))).
  (** 401-416: handle_LDAPModifyRequest *)
  Definition late_modify (req : obj) (cs : option (list (pv * pv * pv))) : next :=
    attempt (checkControls cs) (fun _ => attempt (from_ldap io req) (fun '(d, ms) => go (Call (CPatch d ms) GPatch))).
  (** 453-502: extendedRequest_LDAPPasswordModifyRequest up to the call of the directory *)
  Definition late_password (names : ent -> dn) (bound : option ent) (data : obj) : res (ent * bytes) :=
    do l <- (match data with OSeq _ _ l => Ok l | _ => Err (ELdap 2) end);
    do p <- pw_parts l (mkPw None None None);
    match bound with
    | None => Err (ELdap 8)
    | Some e =>
        do same <- (match p_user p with
                    | None => Ok true
                    | Some u => do t <- utf8_encode (dn_text (names e)); Ok (bytes_eqb t u)
                    end);
        if negb same then Err (ELdap 50)
        else match p_old p, p_new p with
             | None, Some new => Ok (e, new)
             | _, _ => Err (ELdap 1)
             end
    end.
  (** 438-446: the error handler of an extended request *)
  Definition ext_failed (name : bytes) (x : exn) (msg : pv) : fin :=
    match x with ELdap c => Give (Some (ext_obj c msg (VBytes name))) | _ => Fail x msg end.
  (** 420-451: handle_LDAPExtendedRequest *)
  Definition late_extended (names : ent -> dn) (bound : option ent) (name value : pv)
      (cs : option (list (pv * pv * pv))) : next :=
    attempt (checkControls cs) (fun _ =>
    match name with
    | VBytes n =>
        if bytes_eqb n pw_oid then
          attempt (match value with
                   | VBytes b => berDecodeMultiple lookup_id inherit (fromBER (S (length b))) b ctx_pw
                   | VNone => Ok []
                   | VInt _ => Err EType
                   end) (fun values =>
          match values with
          | [data] =>
              match late_password names bound data with
              | Ok (e, new) => go (Call (CPassword e new) (GPassword n))
              | Err x => go (ext_failed n x (VBytes (text x)))
              end
          | _ => go (fails EType)
          end)
        else go (fails (ELdap 2))
    | _ => go (fails (ELdap 2))
    end).

  (** 119, 183-186: the handler of a request *)
  Definition late_handler (names : ent -> dn) (bound : option ent) (req : obj) (cs : option (list (pv * pv * pv))) : next :=
    match req with
    | OBindReq _ version dn auth => late_bind version dn auth cs
    | ONull KUnbind _ => mkNext None None true (Give None)
    | OSearchReq _ base scope deref size time types f attrs => late_search names base scope deref size time types f attrs cs
    | OModReq _ _ _ => late_modify req cs
    | OAddReq _ dn attrs => late_add dn attrs cs
    | OStr KDelReq _ dn => late_delete (VBytes dn) cs
    | OModDNReq _ dn newrdn del newSup => late_modify_dn dn newrdn del newSup cs
    | OCmpReq _ dn ava => late_compare dn ava cs
    | OExtReq _ name value => late_extended names bound name value cs
    | _ => go (Give (Some (ext_obj 2 (VBytes (B "Unknown request")) (VBytes notice_oid))))
    end.

  (** A method called on what a Deferred gave: None has none *)
  Definition on_entry (o : option ent) (k : ent -> fin) : fin :=
    match o with Some e => k e | None => fails EAttr end.
  (** 236-243, 291-298: the error handlers of compare and search *)
  Definition own_error (k : cls) (f : fin) : fin :=
    match f with
    | Fail (ELdap c) _ => Give (Some (res_obj k c (VBytes []) (VBytes [])))
    | Fail _ msg => Give (Some (res_obj k 80 (VBytes []) msg))
    | _ => f
    end.
  (** The callbacks and errbacks that a Deferred of the directory runs when it fires *)
  Definition resume (names : ent -> dn) (g : stage) (r : dres) : next :=
    match g, r with
    (** 156-177 *)
    | GBind _, DErr (ELdap 32) _ | GBind _, DOk None => go (fails EInvalidCredentials)
    | GBind auth, DOk (Some e) => go (Call (CBind e auth) GBound)
    (** 168-174: boundUser is set before its name is read *)
    | GBound, DOk (Some e) => mkNext (Some (Some e)) None false (Give (Some (res_obj KBindResp 0 (pv_text (dn_text (names e))) (VBytes []))))
    | GBound, DOk None => mkNext (Some None) None false (fails EAttr)
    (** 256-298 *)
    | GSearch f attrs scope deref size time types, DOk o =>
        go (own_error KSearchDone (on_entry o (fun e => Call (CSearch e f attrs scope deref size time types) (GFound attrs))))
    | GFound _, DOk _ => go (done KSearchDone)
    | (GSearch _ _ _ _ _ _ _ | GFound _), DErr x msg => go (own_error KSearchDone (Fail x msg))
    (** 210-243 *)
    | GCompare ava, DOk o =>
        go (own_error KCmpResp
          (match ava with
           | OAva _ _ a v => on_entry o (fun e => Call (CCompare e (OAva KEq (class_tag KEq) a v)) GCompared)
           | _ => fails EAttr
           end))
    | GCompared, DOk o =>
        go (Give (Some (res_obj KCmpResp (match o with Some _ => 6 | None => 5 end) (VBytes []) (VBytes []))))
    | (GCompare _ | GCompared), DErr x msg => go (own_error KCmpResp (Fail x msg))
    (** 329-334 *)
    | GDelete, DOk o => go (on_entry o (fun e => Call (CDelete e) GDeleted))
    | GDeleted, DOk _ => go (done KDelResp)
    (** 355-360 *)
    | GAdd rd a, DOk o => go (on_entry o (fun e => Call (CAdd e rd a) GAdded))
    | GAdded, DOk _ => go (done KAddResp)
    (** 388-393 *)
    | GMove d, DOk o => go (on_entry o (fun e => Call (CMove e d) GMoved))
    | GMoved, DOk _ => go (done KModDNResp)
    (** 408-412 *)
    | GPatch, DOk o => go (on_entry o (fun e => Call (CCommit e) GCommit))
    | GCommit, DOk _ => go (done KModResp)
    (** 504-511, 438-446 *)
    | GPassword n, DOk (Some _) => go (Give (Some (ext_obj 0 (VBytes []) (VBytes pw_oid))))
    | GPassword n, DOk None => go (ext_failed n (ELdap 1) (VBytes (text (ELdap 1))))
    | GPassword n, DErr x msg => go (ext_failed n x msg)
    (** the failure goes on to the handlers of 126-128 *)
    | _, DErr x msg => go (Fail x msg)
    end.

  (** 52-58: queue(id, op) *)
  Definition queued (s : late) (id : pv) (op : obj) : res bytes :=
    match l_conn s with
    | CUp => toWire (OMessage (class_tag KMessage) id op None)
    | _ => Err EGone
    end.
  (** 88-90, 129: _cbHandle at the end of the chain: an exception there is only logged *)
  Definition respond (k : nat) (id : pv) (op : obj) (s : late) : late :=
    match queued s id op with
    | Ok b => emit (TWrite k id op b) s
    | Err x => emit (TUnsent k op x) s
    end.
  (** A call of the directory; a search is given a callback (280) *)
  Definition calls (k : nat) (id : pv) (kd : rkind) (c : call) (g : stage) (s : late) : late :=
    let n := l_calls s in
    mkLate (l_conn s) (l_bound s) (l_reqs s) (S n) ((n, mkWait k id kd g) :: l_wait s)
      (match g with GFound attrs => (n, (k, id, attrs)) :: l_cbs s | _ => l_cbs s end) (l_trace s ++ [TCall n k c]).
  (** The end of a handler or callback: on to the directory, or through 126-129 *)
  Definition finish (k : nat) (id : pv) (kd : rkind) (f : fin) (s : late) : late :=
    match f with
    | Call c g => calls k id kd c g s
    | Give None => s
    | Give (Some o) => respond k id o s
    | Fail x msg => respond k id (on_error kd x msg) s
    end.
  (** 149, 169: self.boundUser = ... *)
  Definition set_bound_user (o : option ent) (s : late) : late :=
    mkLate (l_conn s) o (l_reqs s) (l_calls s) (l_wait s) (l_cbs s) (l_trace s).
  Definition perform (k : nat) (id : pv) (kd : rkind) (nx : next) (s : late) : late :=
    let s := match n_bound nx with Some o => set_bound_user o s | None => s end in
    let s := if n_close nx then emit (TClose k) s else s in
    match n_reply nx with
    | None => finish k id kd (n_fin nx) s
    | Some o =>
        match queued s id o with
        | Ok b => finish k id kd (n_fin nx) (emit (TWrite k id o b) s)
        | Err x => finish k id kd (fails x) (emit (TRefused k x) s)
        end
    end.

  (** 110-129: handle(msg) *)
  Definition late_handle (m : obj) (names : ent -> dn) (s : late) : late :=
    match m with
    | OMessage _ id req cs =>
        match kind_of req with
        | None => emit (TCrash EAssert) s
        | Some kd =>
            match id with
            | VInt 0 => emit (TNotice req) s
            | _ =>
                let k := l_reqs s in
                perform k id kd (late_handler names (l_bound s) req cs)
                  (mkLate (l_conn s) (l_bound s) (S k) (l_calls s) (l_wait s) (l_cbs s) (l_trace s ++ [TGot k id req cs names]))
            end
        end
    | _ => emit (TCrash EAttr) s
    end.

  Fixpoint find_at {A} (n : nat) (l : list (nat * A)) : option A :=
    match l with [] => None | (m, a) :: r => if Nat.eqb n m then Some a else find_at n r end.
  Definition drop_at {A} (n : nat) (l : list (nat * A)) : list (nat * A) :=
    List.filter (fun x => negb (Nat.eqb n (fst x))) l.
  (** The Deferred of call [n] fires; one fires once *)
  Definition fired (n : nat) (r : dres) (names : ent -> dn) (s : late) : late :=
    match find_at n (l_wait s) with
    | None => s
    | Some w =>
        perform (w_req w) (w_id w) (w_kind w) (resume names (w_stage w) r)
          (mkLate (l_conn s) (l_bound s) (l_reqs s) (l_calls s) (drop_at n (l_wait s)) (l_cbs s) (l_trace s ++ [TFired n r]))
    end.
  (** 257-270: _sendEntryToClient(entry), called by search [n]; an exception goes to the search *)
  Definition called_back (n : nat) (e : entry) (s : late) : late :=
    match find_at n (l_cbs s) with
    | None => s
    | Some (k, id, attrs) =>
        match (do o <- entry_response lower oc_first attrs e; do b <- queued s id o; Ok (o, b)) with
        | Ok (o, b) => emit (TWrite k id o b) s
        | Err x => emit (TRefused k x) s
        end
    end.
  Definition set_conn (c : conn) (e : tev) (s : late) : late :=
    mkLate c (l_bound s) (l_reqs s) (l_calls s) (l_wait s) (l_cbs s) (l_trace s ++ [e]).
  (** One event: a connection is made once and lost once, and data comes between *)
  Definition lstep (s : late) (e : levent) : late :=
    match e, l_conn s with
    | EMade, CNew => set_conn CUp TMade s
    | ELost, CUp => set_conn CGone TLost s
    | EMessage m names, CUp => late_handle m names s
    | EFired n r names, _ => fired n r names s
    | EEntry n e, _ => called_back n e s
    | _, _ => s
    end.
  Definition lrun (es : list levent) : late := fold_left lstep es late_0.
End Late.
