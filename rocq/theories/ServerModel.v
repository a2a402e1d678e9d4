(** Model of ldaptor/protocols/ldap/ldapserver.py (BaseLDAPServer, LDAPServer) serving the in-memory
    directory of ldaptor/inmemory.py.

    Simplifications:
    - the messages are given already decoded (StreamModel, C07 and C08 are about the octets);
    - the connection stays open: after an unbind the server only asks for it to be closed, and data
      still in the buffer is handled;
    - Deferreds are already fired, as those of the in-memory directory are;
    - an integer that a hostile client sends in place of octets is reported as TypeError. *)
From Verif Require Import Base BerModel LdapModel LdapSpec Utf8Model DnModel EntryModel DeltaModel MatchModel
  UtilModel LdifModel PwModel InmemModel.

(** What the server does to its transport, and what it logs *)
Inductive sevent :=
| SWrite (id : pv) (op : obj) (octets : bytes)  (** a message written: the operation, and its octets *)
| SDropped (x : exn)                            (** the final response could not be encoded *)
| SNotice (op : obj)                            (** 60: an unsolicited notification *)
| SClose.                                       (** 186: transport.loseConnection() *)

(** The state of a connection and of the directory behind it: 135 boundUser *)
Record srv := mkSrv { v_heap : heap; v_root : ref; v_bound : option ref }.
Definition set_heap (s : srv) (h : heap) : srv := mkSrv h (v_root s) (v_bound s).
Definition set_bound (s : srv) (b : option ref) : srv := mkSrv (v_heap s) (v_root s) b.

(** What a handler returns, or raises: the exception and its message *)
Inductive outcome := Return (o : option obj) | Raise (x : exn) (msg : pv).
(** What a handler does: the state it leaves, what it wrote, and its outcome *)
Definition hres := (srv * list sevent * outcome)%type.

(** pureldap.py 1569: LDAPPasswordModifyRequest.oid *)
Definition pw_oid : bytes := B "1.3.6.1.4.1.4203.1.11.1".
(** ldapserver.py 75, 95: the name of an unsolicited notice of disconnection *)
Definition notice_oid : bytes := B "1.3.6.1.4.1.1466.20036".

(** Text in a field: it is encoded when the message is; text that cannot be is shown here as a value
    that cannot be encoded either. *)
Definition pv_text (s : str) : pv := match utf8_encode s with Ok b => VBytes b | Err _ => VInt 0 end.
Definition pv_of (v : pyval) : pv := match v with PBytes b => VBytes b | PStr s => pv_text s end.

(** pureldap.py 297-316: LDAPResult.__init__ and its subclasses; an absent matchedDN or errorMessage is "" *)
Definition res_obj (k : cls) (code : Z) (dn msg : pv) : obj := OResult k (class_tag k) (VInt code) dn msg VNone.
Definition ext_obj (code : Z) (msg name : pv) : obj :=
  OExtResp (class_tag KExtResp) (VInt code) (VBytes []) msg name VNone.

(** ldapserver.py 110-120: the name of the request's class, as far as it picks handler and error handler *)
Inductive rkind := RBind | RUnbind | RSearch | RModify | RAdd | RDelete | RModifyDN | RCompare | RAbandon | RExtended.
(** 111: isinstance(msg.value, LDAPProtocolRequest) *)
Definition kind_of (o : obj) : option rkind :=
  match o with
  | OBindReq _ _ _ _ => Some RBind
  | ONull KUnbind _ => Some RUnbind
  | OSearchReq _ _ _ _ _ _ _ _ _ => Some RSearch
  | OModReq _ _ _ => Some RModify
  | OAddReq _ _ _ => Some RAdd
  | OStr KDelReq _ _ => Some RDelete
  | OModDNReq _ _ _ _ _ => Some RModifyDN
  | OCmpReq _ _ _ => Some RCompare
  | OInt KAbandon _ _ => Some RAbandon
  | OExtReq _ _ _ => Some RExtended
  | _ => None
  end.

(** 92-101, 137, 207, 300, 320, 340, 366, 399, 418: the response that an error handler makes *)
Definition fail_obj (k : rkind) (code : Z) (msg : pv) : obj :=
  match k with
  | RBind => res_obj KBindResp code (VBytes []) msg
  | RSearch => res_obj KSearchDone code (VBytes []) msg
  | RModify => res_obj KModResp code (VBytes []) msg
  | RAdd => res_obj KAddResp code (VBytes []) msg
  | RDelete => res_obj KDelResp code (VBytes []) msg
  | RModifyDN => res_obj KModDNResp code (VBytes []) msg
  | RCompare => res_obj KCmpResp code (VBytes []) msg
  | RExtended => ext_obj code msg VNone
  | RUnbind | RAbandon => ext_obj code msg (VBytes notice_oid)
  end.

(** DistinguishedName(v) of a decoded field *)
Definition to_dn (io : Z -> Z -> res Z) (v : pv) : res dn :=
  match v with VBytes b => do s <- utf8_decode b; parse_dn io s | _ => Err EType end.

(** 63-69: checkControls(controls) *)
Fixpoint check_list (cs : list (pv * pv * pv)) : res unit :=
  match cs with
  | [] => Ok tt
  | (t, cr, _) :: r =>
      if truthy cr then match t with VBytes _ => Err (ELdap 12) | _ => Err EType end else check_list r
  end.
Definition checkControls (cs : option (list (pv * pv * pv))) : res unit :=
  match cs with None => Ok tt | Some l => check_list l end.

(** entry.py 227: to_bytes(password) of request.auth: octets, an integer, or a pair of the SASL
    mechanism and credentials (bytes of a tuple) *)
Definition auth_bytes (a : bauth) : res bytes :=
  match a with
  | ASimple (VBytes b) => Ok b
  | ASimple (VInt z) => Ok (map z2b (dec z))
  | ASimple VNone => Err EType
  | ASasl (VInt m) (VInt c) =>
      if (0 <=? m) && (m <? 256) && (0 <=? c) && (c <? 256) then Ok [z2b m; z2b c] else Err EValue
  | ASasl _ _ => Err EType
  end.

(** 518-522: the decoder context of the password modify request *)
Definition ctx_pw : ctx := Ctx T_BER None (Some (Ctx T_PwModify None (Some ctx_ber))).

Section Server.
  Variable lower : str -> str.                   (** str.lower() *)
  Variable io : Z -> Z -> res Z.                 (** int(two characters, 16), see DnModel *)
  Variable sha : bytes -> bytes.                 (** hashlib.sha1(x).digest() *)
  Variable oc_first pw_first : bool.             (** iteration order of two sets of keys, see LdifModel, PwModel *)
  Variable odd_match : obj -> entry -> res bool. (** matching an ill-typed filter: anything *)
  Variable text : exn -> bytes.                  (** the message of an exception: anything *)
  Variable depth : nat.                          (** Python's recursion limit, see InmemModel *)

  (** 52-58: queue(id, op) *)
  Definition queue (id : pv) (op : obj) : res sevent :=
    do b <- toWire (OMessage (class_tag KMessage) id op None); Ok (SWrite id op b).

  Definition raise (s : srv) (x : exn) : hres := (s, [], Raise x (VBytes (text x))).
  Definition give (s : srv) (o : obj) : hres := (s, [], Return (Some o)).
  (** a step that may raise, in a handler *)
  Definition try {A} (s : srv) (r : res A) (k : A -> hres) : hres :=
    match r with Ok a => k a | Err x => raise s x end.
  Definition entry_of (s : srv) (r : ref) : res entry := do n <- deref (v_heap s) r; Ok (n_entry n).

  (** 139-181: handle_LDAPBindRequest *)
  Definition handle_bind (s : srv) (version dn : pv) (auth : bauth) (cs : option (list (pv * pv * pv))) : hres :=
    match version with
    | VInt 3 =>
        try s (checkControls cs) (fun _ =>
        match dn with
        | VBytes [] => give (set_bound s None) (res_obj KBindResp 0 (VBytes []) (VBytes []))
        | _ =>
            try s (to_dn io dn) (fun d =>
            match lookup lower depth (v_heap s) (v_root s) d with
            | Err (ELdap 32) => raise s EInvalidCredentials
            | Err x => raise s x
            | Ok r =>
                try s (auth_bytes auth) (fun pw =>
                try s (entry_of s r) (fun e =>
                try s (entry_bind sha lower pw_first pw e) (fun _ =>
                give (set_bound s (Some r)) (res_obj KBindResp 0 (pv_text (dn_text (e_dn e))) (VBytes [])))))
            end)
        end)
    | VInt _ => raise s (ELdap 2)
    | _ => raise s EType
    end.

  (** 183-186: handle_LDAPUnbindRequest *)
  Definition handle_unbind (s : srv) : hres := (s, [SClose], Return None).
  (** 71-78: handleUnknown *)
  Definition handle_unknown (s : srv) : hres := give s (ext_obj 2 (VBytes (B "Unknown request")) (VBytes notice_oid)).

  (** entryhelpers.py 147-237: match(filter) of a decoded filter *)
  Definition matchf (e : entry) (f : obj) : res bool :=
    match read_filter f with Some g => matches lower e g | None => odd_match f e end.

  (** entry.py 101-119: items() *)
  Definition oc_part (e : entry) : res (list (pyval * list pyval)) :=
    do l <- mapR (fun k => match dict_get lower k (e_attrs e) with
                           | Some a => match s_vals a with [] => Ok [] | _ => do vs <- sort_to_bytes (s_vals a); Ok [(k, vs)] end
                           | None => Ok []
                           end) (oc_keys oc_first);
    Ok (concat l).
  Definition other_part (e : entry) : res (list (pyval * list pyval)) :=
    do kb <- mapR (fun a => do b <- to_bytes (s_key a); Ok (b, (s_key a, s_vals a))) (e_attrs e);
    mapR (fun kv => do vs <- sort_values (snd kv); Ok (fst kv, vs))
      (List.filter (fun kv => negb (is_oc lower (fst kv)))
         (map snd (sort_by (fun x y => bytes_leb (fst x) (fst y)) kb))).
  Definition items (e : entry) : res (list (pyval * list pyval)) :=
    do a <- oc_part e; do b <- other_part e; Ok (a ++ b).

  Definition pair_pv (kv : pyval * list pyval) : pv * list pv := (pv_of (fst kv), map pv_of (snd kv)).
  (** 260-262: [(k, entry.get(k)) for k in requested_attribs if k in entry] *)
  Fixpoint picked (ks : list pv) (e : entry) : res (list (pv * list pv)) :=
    match ks with
    | [] => Ok []
    | VBytes b :: r =>
        do h <- has_key lower (PBytes b) e;
        if h then do vs <- get_values lower (PBytes b) e; do l <- picked r e; Ok ((VBytes b, map pv_of vs) :: l)
        else picked r e
    | _ :: r => picked r e
    end.
  Definition is_star (k : pv) : bool := match k with VBytes b => bytes_eqb b (B "*") | _ => false end.
  (** 257-270: _sendEntryToClient, the response it makes *)
  Definition entry_response (attrs : list pv) (e : entry) : res obj :=
    do l <- (if negb (match attrs with [] => true | _ => false end) && negb (existsb is_star attrs)
             then picked attrs e
             else do l <- items e; Ok (map pair_pv l));
    Ok (OSearchEntry (class_tag KSearchEntry) (pv_text (dn_text (e_dn e))) l).
  (** entryhelpers.py 295-298 with 257-270: one entry of the walk *)
  Definition visit (id : pv) (f : obj) (attrs : list pv) (h : heap) (r : ref) (w : list sevent)
    : list sevent * option exn :=
    match (do n <- deref h r;
           do b <- matchf (n_entry n) f;
           if b then do o <- entry_response attrs (n_entry n); do ev <- queue id o; Ok [ev] else Ok []) with
    | Ok l => (w ++ l, None)
    | Err x => (w, Some x)
    end.
  (** entryhelpers.py 248-305: search with a callback. The scope is compared with ==. *)
  Definition walk (id : pv) (f : obj) (attrs : list pv) (scope : pv) (h : heap) (r : ref) : list sevent * option exn :=
    match scope with
    | VInt 2 => subtree (visit id f attrs h) depth h r []
    | VInt 1 => match nth_error h r with
                | Some n => each_child (visit id f attrs h) (n_children n) []
                | None => ([], Some EAttr)
                end
    | VInt 0 => visit id f attrs h r []
    | _ => ([], Some (ELdap 2))
    end.

  (** 305-309: request.filter == LDAPFilter_present("objectClass"): the wire forms; an and/or filter
      (pureldap.py 506-515) of the same length tries to iterate the other one *)
  Definition is_match_all (f : obj) : res bool :=
    do m <- toWire (OStr KPresent (class_tag KPresent) (B "objectClass"));
    do w <- toWire f;
    match f with
    | OSeq (KAnd | KOr) _ _ => if zlen w =? zlen m then Err EType else Ok false
    | _ => Ok (bytes_eqb w m)
    end.

  (** 188-205: getRootDSE *)
  Definition root_dse (rootdn : dn) : obj :=
    OSearchEntry (class_tag KSearchEntry) (VBytes [])
      [(VBytes (B "supportedLDAPVersion"), [VBytes (B "3")]);
       (VBytes (B "namingContexts"), [pv_text (dn_text rootdn)]);
       (VBytes (B "supportedExtension"), [VBytes pw_oid])].
  Definition handle_root_dse (s : srv) (id : pv) : hres :=
    try s (entry_of s (v_root s)) (fun e =>
    try s (queue id (root_dse (e_dn e))) (fun ev =>
    (s, [ev], Return (Some (res_obj KSearchDone 0 (VBytes []) (VBytes [])))))).

  (** 291-298: the error handlers of search *)
  Definition search_error (x : exn) : obj :=
    match x with
    | ELdap c => res_obj KSearchDone c (VBytes []) (VBytes [])
    | _ => res_obj KSearchDone 80 (VBytes []) (VBytes (text x))
    end.
  (** 302-318, 256-289: handle_LDAPSearchRequest, _cbSearchGotBase *)
  Definition handle_search (s : srv) (id base scope : pv) (f : obj) (attrs : list pv)
      (cs : option (list (pv * pv * pv))) : hres :=
    try s (checkControls cs) (fun _ =>
    try s (match base, scope with VBytes [], VInt 0 => is_match_all f | _, _ => Ok false end) (fun dse =>
    if dse then handle_root_dse s id
    else
      try s (to_dn io base) (fun d =>
      match lookup lower depth (v_heap s) (v_root s) d with
      | Err x => give s (search_error x)
      | Ok r =>
          match walk id f attrs scope (v_heap s) r with
          | (w, None) => (s, w, Return (Some (res_obj KSearchDone 0 (VBytes []) (VBytes []))))
          | (w, Some x) => (s, w, Return (Some (search_error x)))
          end
      end))).

  (** 236-243: the error handlers of compare *)
  Definition compare_error (x : exn) : obj :=
    match x with
    | ELdap c => res_obj KCmpResp c (VBytes []) (VBytes [])
    | _ => res_obj KCmpResp 80 (VBytes []) (VBytes (text x))
    end.
  (** 209-254: handle_LDAPCompareRequest *)
  Definition handle_compare (s : srv) (dn : pv) (ava : obj) (cs : option (list (pv * pv * pv))) : hres :=
    try s (checkControls cs) (fun _ =>
    try s (to_dn io dn) (fun d =>
    match (do r <- lookup lower depth (v_heap s) (v_root s) d;
           do e <- entry_of s r;
           match ava with
           | OAva _ _ a v => matchf e (OAva KEq (class_tag KEq) a v)
           | _ => Err EAttr
           end) with
    | Ok b => give s (res_obj KCmpResp (if b then 6 else 5) (VBytes []) (VBytes []))
    | Err x => give s (compare_error x)
    end)).

  (** The message of what delete raises. inmemory.py 75: that of LDAPNotAllowedOnNonLeaf is a
      DistinguishedName, which is neither text nor bytes: a value that cannot be encoded. *)
  Definition delete_msg (x : exn) : pv := match x with ELdap 66 => VInt 0 | _ => VBytes (text x) end.
  (** 322-338: handle_LDAPDelRequest *)
  Definition handle_delete (s : srv) (dn : pv) (cs : option (list (pv * pv * pv))) : hres :=
    try s (checkControls cs) (fun _ =>
    try s (to_dn io dn) (fun d =>
    try s (lookup lower depth (v_heap s) (v_root s) d) (fun r =>
    match delete (v_heap s) r with
    | Ok (h, _) => give (set_heap s h) (res_obj KDelResp 0 (VBytes []) (VBytes []))
    | Err x => (s, [], Raise x (delete_msg x))
    end))).

  (** 345-348: the dict of sets built from request.attributes *)
  Fixpoint dict_add (k : pyval) (vs : list pyval) (d : list (pyval * list pyval)) : list (pyval * list pyval) :=
    match d with
    | [] => [(k, set_of vs)]
    | (k', l) :: r => if pyval_eqb k k' then (k', set_update l vs) :: r else (k', l) :: dict_add k vs r
    end.
  Definition add_attr (o : obj) : res (pyval * list pyval) :=
    do parts <- iter_of o;
    match parts with
    | [name; vals] => do k <- bytes_value name; do l <- iter_of vals; do vs <- mapR bytes_value l; Ok (k, vs)
    | _ => Err EValue
    end.
  Definition add_attrs (attrs : obj) : res (list (pyval * list pyval)) :=
    do l <- iter_of attrs; do kvs <- mapR add_attr l;
    Ok (fold_left (fun d kv => dict_add (fst kv) (snd kv) d) kvs []).
  (** 342-364: handle_LDAPAddRequest *)
  Definition handle_add (s : srv) (dn : pv) (attrs : obj) (cs : option (list (pv * pv * pv))) : hres :=
    try s (checkControls cs) (fun _ =>
    try s (add_attrs attrs) (fun a =>
    try s (to_dn io dn) (fun d =>
    match d with
    | [] => raise s EIndex
    | rd :: up =>
        try s (lookup lower depth (v_heap s) (v_root s) up) (fun p =>
        try s (parse_rdn io (rdn_text rd)) (fun rd' =>
        try s (add_child lower (v_heap s) p rd' a) (fun '(h, _) =>
        give (set_heap s h) (res_obj KAddResp 0 (VBytes []) (VBytes [])))))
    end))).

  (** 368-397: handle_LDAPModifyDNRequest *)
  Definition handle_modify_dn (s : srv) (dn newrdn del newSup : pv) (cs : option (list (pv * pv * pv))) : hres :=
    try s (checkControls cs) (fun _ =>
    try s (to_dn io dn) (fun d =>
    try s (match newrdn with VBytes b => do t <- utf8_decode b; parse_rdn io t | _ => Err EType end) (fun nrd =>
    if negb (truthy del) then raise s (ELdap 53)
    else
      try s (match newSup with VNone => Ok (dn_up d) | _ => to_dn io newSup end) (fun sup =>
      try s (lookup lower depth (v_heap s) (v_root s) d) (fun r =>
      match move lower depth (v_heap s) r (nrd :: sup) with
      | (h, Ok _) => give (set_heap s h) (res_obj KModDNResp 0 (VBytes []) (VBytes []))
      | (h, Err x) => raise (set_heap s h) x
      end))))).

  (** 401-416: handle_LDAPModifyRequest; delta.py 180-192: ModifyOp.patch *)
  Definition handle_modify (s : srv) (req : obj) (cs : option (list (pv * pv * pv))) : hres :=
    try s (checkControls cs) (fun _ =>
    try s (from_ldap io req) (fun '(d, ms) =>
    try s (lookup lower depth (v_heap s) (v_root s) d) (fun r =>
    try s (deref (v_heap s) r) (fun n =>
    let (e, o) := patch_all lower ms (n_entry n) in
    let s' := set_heap s (set_nth r (set_entry n e) (v_heap s)) in
    match o with
    | Ok _ => give s' (res_obj KModResp 0 (VBytes []) (VBytes []))
    | Err x => raise s' x
    end)))).

  (** 459-486: the loop over the parts of a password modify request *)
  Record pwreq := mkPw { p_user : option bytes; p_old : option bytes; p_new : option bytes }.
  Fixpoint pw_parts (l : list obj) (p : pwreq) : res pwreq :=
    match l with
    | [] => Ok p
    | OStr KPwUser _ b :: r =>
        match p_user p with Some _ => Err (ELdap 2) | None => pw_parts r (mkPw (Some b) (p_old p) (p_new p)) end
    | OStr KPwOld _ b :: r =>
        match p_old p with Some _ => Err (ELdap 2) | None => pw_parts r (mkPw (p_user p) (Some b) (p_new p)) end
    | OStr KPwNew _ b :: r =>
        match p_new p with Some _ => Err (ELdap 2) | None => pw_parts r (mkPw (p_user p) (p_old p) (Some b)) end
    | _ :: _ => Err (ELdap 2)
    end.
  (** 453-514: extendedRequest_LDAPPasswordModifyRequest; [salt] is the random salt of sshaDigest.
      454: every decoded object that is a BERSequence, plain in this context *)
  Definition pw_modify (s : srv) (salt : bytes) (data : obj) : srv * res unit :=
    match (do l <- (match data with OSeq _ _ l => Ok l | _ => Err (ELdap 2) end);
           do p <- pw_parts l (mkPw None None None);
           match v_bound s with
           | None => Err (ELdap 8)
           | Some r =>
               do n <- deref (v_heap s) r;
               do same <- (match p_user p with
                           | None => Ok true
                           | Some u => do t <- utf8_encode (dn_text (n_dn n)); Ok (bytes_eqb t u)
                           end);
               if negb same then Err (ELdap 50)
               else match p_old p, p_new p with
                    | None, Some new =>
                        do e <- setPassword sha lower pw_first new salt (n_entry n);
                        Ok (set_heap s (set_nth r (set_entry n e) (v_heap s)))
                    | _, _ => Err (ELdap 1)
                    end
           end) with
    | Ok s' => (s', Ok tt)
    | Err x => (s, Err x)
    end.
  (** 420-451: handle_LDAPExtendedRequest *)
  Definition handle_extended (s : srv) (salt : bytes) (name value : pv) (cs : option (list (pv * pv * pv))) : hres :=
    try s (checkControls cs) (fun _ =>
    match name with
    | VBytes n =>
        if bytes_eqb n pw_oid then
          try s (match value with
                 | VBytes b => berDecodeMultiple lookup_id inherit (fromBER (S (length b))) b ctx_pw
                 | VNone => Ok []
                 | VInt _ => Err EType
                 end) (fun values =>
          match values with
          | [data] =>
              match pw_modify s salt data with
              | (s', Ok _) => give s' (ext_obj 0 (VBytes []) (VBytes pw_oid))
              | (s', Err (ELdap c)) => give s' (ext_obj c (VBytes (text (ELdap c))) (VBytes n))
              | (s', Err x) => raise s' x
              end
          | _ => raise s EType
          end)
        else raise s (ELdap 2)
    | _ => raise s (ELdap 2)
    end).

  (** 119: getattr(self, "handle_" + name, self.handleUnknown), called with reply bound to the id *)
  Definition handler (s : srv) (salt : bytes) (id : pv) (req : obj) (cs : option (list (pv * pv * pv))) : hres :=
    match req with
    | OBindReq _ version dn auth => handle_bind s version dn auth cs
    | ONull KUnbind _ => handle_unbind s
    | OSearchReq _ base scope _ _ _ _ f attrs => handle_search s id base scope f attrs cs
    | OModReq _ _ _ => handle_modify s req cs
    | OAddReq _ dn attrs => handle_add s dn attrs cs
    | OStr KDelReq _ dn => handle_delete s (VBytes dn) cs
    | OModDNReq _ dn newrdn del newSup => handle_modify_dn s dn newrdn del newSup cs
    | OCmpReq _ dn ava => handle_compare s dn ava cs
    | OExtReq _ name value => handle_extended s salt name value cs
    | _ => handle_unknown s
    end.

  (** 80-86, 99-108: what the error handlers make of an exception *)
  Definition on_error (k : rkind) (x : exn) (msg : pv) : obj :=
    match x with ELdap c => fail_obj k c msg | _ => fail_obj k 2 msg end.
  (** 88-90, 129: _cbHandle at the end of the chain: an exception there is only logged *)
  Definition final (id : pv) (r : option obj) : list sevent :=
    match r with
    | None => []
    | Some o => match queue id o with Ok ev => [ev] | Err x => [SDropped x] end
    end.
  (** 110-129: handle(msg) *)
  Definition handle (s : srv) (salt : bytes) (msg : obj) : res (srv * list sevent) :=
    match msg with
    | OMessage _ id v cs =>
        match kind_of v with
        | None => Err EAssert
        | Some k =>
            match id with
            | VInt 0 => Ok (s, [SNotice v])
            | _ =>
                match handler s salt id v cs with
                | (s', w, Return o) => Ok (s', w ++ final id o)
                | (s', w, Raise x msg) => Ok (s', w ++ final id (Some (on_error k x msg)))
                end
            end
        end
    | _ => Err EAttr
    end.

  (** 32-42: the messages of a connection in turn; what handle raises ends dataReceived (and twisted
      closes the connection). Each comes with the salt that a password change would draw. *)
  Fixpoint serve (s : srv) (ms : list (obj * bytes)) : srv * list sevent * option exn :=
    match ms with
    | [] => (s, [], None)
    | (m, salt) :: r =>
        match handle s salt m with
        | Err x => (s, [], Some x)
        | Ok (s', w) => let '(s'', w', x) := serve s' r in (s'', w ++ w', x)
        end
    end.
End Server.
