(** Model of ServiceBindingProxy (ldaptor/protocols/ldap/svcbindproxy.py 8-178): what becomes of one
    bind request, as a machine driven by the backend.

    Simplifications:
    - the connection to the backend is up when the request is handled; waiting for it is C58;
    - each event is a message for the request that is outstanding (C41 is about finding it), with the
      clock and whether the client is connected at that moment (client.send raises if not);
    - a reply is what is given to BaseLDAPServer.queue (C58 is about writing it);
    - service names and passwords are octets; text is encoded when the request is. *)
From Verif Require Import Base Utf8Model DnModel EntryModel LdapModel ServerModel ClientModel ProxyModel SyntaxModel.

(** What can be observed, in order *)
Inductive bev :=
| BSearchFor (req : obj)      (* sent to the backend by baseEntry.search *)
| BBindAs (req : obj)         (* sent to the backend by e.bind *)
| BForwarded (req : obj)      (* the client's request, sent to the backend *)
| BCame (msg : obj)           (* response to the outstanding request *)
| BReply (v : obj).           (* given to the client *)
(** What is waited for *)
Inductive bphase :=
| BSearching (name : bytes) (rest : list bytes) (acc : sres)
| BBinding (name : bytes) (rest : list bytes) (c : cent)
| BPassing                    (* the responses to the forwarded request *)
| BDone.
Record bst := mkB { b_phase : bphase; b_trace : list bev }.
Definition bemit (l : list bev) (s : bst) : bst := mkB (b_phase s) (b_trace s ++ l).
Definition b_wait (p : bphase) (s : bst) : bst := mkB p (b_trace s).

Section Svc.
  Variable lower : str -> str.
  Variable io : Z -> Z -> res Z.
  Variable text : exn -> bytes.             (** getErrorMessage, the message of an LDAPException *)
  Variable services : list bytes.           (** 29, 46: self.services *)
  Variable fallback : bool.                 (** 31, 48: self.fallback *)
  Variable base : option dn.                (** config.getIdentityBaseDN() as a DN; None: it raises, or is no DN *)
  (** the request: 165-178 *)
  Variable tag version : Z.
  Variable owner : bytes.                   (** request.dn *)
  Variable auth : bauth.                    (** request.auth *)
  Variable controls : option (list (pv * pv * pv)).
  Definition b_req : obj := OBindReq tag (VInt version) (VBytes owner) auth.

  (** 82-132: the filter of the search *)
  Definition ava (k : cls) (a v : bytes) : obj := OAva k (class_tag k) (OStr KOctet (class_tag KOctet) a) (OStr KOctet (class_tag KOctet) v).
  Definition or_valid (a : bytes) (k : cls) (now : bytes) : obj :=
    OSeq KOr (class_tag KOr) [ONot (class_tag KNot) (OStr KPresent (class_tag KPresent) a); ava k a now].
  Definition svc_filter (name now : bytes) : obj :=
    OSeq KAnd (class_tag KAnd)
      [ava KEq (B "objectClass") (B "serviceSecurityObject"); ava KEq (B "owner") owner; ava KEq (B "cn") name;
       or_valid (B "validFrom") KLe now; or_valid (B "validUntil") KGe now].
  (** ldapserver.py 71-77, 104-109: the response to an exception, with fail_LDAPBindRequest *)
  Definition b_error (x : exn) : obj :=
    match x with ELdap c => fail_obj RBind c (VBytes (text x)) | _ => fail_obj RBind 2 (VBytes (text x)) end.
  (** ldapclient.py 83-87 *)
  Definition net_of (up : bool) : option exn := if up then None else Some ELostConn.
  (** 58-70: _maybeFallback, or its errback *)
  Definition conclude (r : res (option cent)) (s : bst) : bst :=
    match r with
    | Ok (Some _) => b_wait BDone (bemit [BReply (res_obj KBindResp 0 (VBytes owner) (VBytes []))] s)
    | Ok None =>
        if fallback then b_wait BPassing (bemit [BForwarded b_req] s)
        else b_wait BDone (bemit [BReply (res_obj KBindResp 49 (VBytes []) (VBytes []))] s)
    | Err x => b_wait BDone (bemit [BReply (b_error x)] s)
    end.
  (** 76-149: _tryService. baseEntry is an entry with the DN [d] *)
  Definition try_service (now : bytes) (up : bool) (d : dn) (rest : list bytes) (s : bst) : bst :=
    match rest with
    | [] => conclude (Ok None) s
    | name :: r =>
        match c_search (Ok (svc_filter name now)) (Some [B "1.1"]) 2 0 0 0 0 (net_of up) (new_cent lower d []) with
        | (l, Ok _) => b_wait (BSearching name r (mkSres [] None)) (bemit (map BSearchFor l) s)
        | (l, Err x) => conclude (Err x) (bemit (map BSearchFor l) s)
        end
    end.
  (** 158-161: _loopIfBindError *)
  Definition loop_error (x : exn) (now : bytes) (up : bool) (d : dn) (rest : list bytes) (s : bst) : bst :=
    match x with ELdap 49 => try_service now up d rest s | _ => conclude (Err x) s end.
  (** 134-140: _gotEntries; ldapsyntax.py 285-289. A SASL bind gives a tuple for a password, which
      cannot be encoded. *)
  Definition e_bind (up : bool) (c : cent) : list obj * res cval :=
    match auth with ASimple (VBytes pw) => c_bind pw (net_of up) c | _ => ([], Err EType) end.
  Definition got_entries (now : bytes) (up : bool) (d : dn) (name : bytes) (rest : list bytes) (es : list cent) (s : bst) : bst :=
    match es with
    | [] => try_service now up d rest s
    | [c] =>
        match e_bind up c with
        | (l, Ok _) => b_wait (BBinding name rest c) (bemit (map BBindAs l) s)
        | (l, Err x) => loop_error x now up d rest (bemit (map BBindAs l) s)
        end
    | _ => loop_error EAssert now up d rest s
    end.
  (** ldapsyntax.py 291-296: _handle_bind_msg *)
  Definition bind_msg (msg : obj) : res unit :=
    match msg with OResult KBindResp _ code _ _ _ => code_check code | _ => Err EAssert end.

  (** 50-56, 163-178: handle_LDAPBindRequest, _startSearch. What is read from the wire is bytes, so
      [request.dn == ""] is never true (173). With no services, _tryService returns None, which has no
      addCallback (54-55). *)
  Definition b_start (now : bytes) (up : bool) : bst :=
    let s := mkB BDone [] in
    if negb (version =? 3) then conclude (Err (ELdap 2)) s
    else
      match checkControls controls with
      | Err x => conclude (Err x) s
      | Ok _ =>
          match base with
          | None => conclude (Err EValue) s
          | Some d => match services with [] => conclude (Err EAttr) s | _ => try_service now up d services s end
          end
      end.

  (** What happens: a message, or the connection to the backend is lost. An exception in _cbSearchMsg,
      or a message that is no response, ends that connection. *)
  Inductive bevent := BMsg (now : bytes) (up : bool) (msg : obj) | BLost (now : bytes).
  Definition lost (now : bytes) (s : bst) : bst :=
    match b_phase s with
    | BSearching _ rest _ | BBinding _ rest _ => conclude (Err ELostConn) s
    | BPassing | BDone => b_wait BDone s
    end.
  Definition b_step (s : bst) (e : bevent) : bst :=
    match e with
    | BLost now => lost now s
    | BMsg now up msg =>
        if negb (is_response msg) then lost now s
        else
          match base with
          | None => s
          | Some d =>
              match b_phase s with
              | BSearching name rest acc =>
                  let s := bemit [BCame msg] s in
                  match search_msg lower io false msg acc with
                  | (_, Err x) => lost now s
                  | (acc', Ok false) => b_wait (BSearching name rest acc') s
                  | (acc', Ok true) =>
                      match q_end acc' with
                      | Some (Err x) => loop_error x now up d rest s
                      | _ => got_entries now up d name rest (q_found acc') s
                      end
                  end
              | BBinding name rest c =>
                  let s := bemit [BCame msg] s in
                  match bind_msg msg with
                  | Err x => loop_error x now up d rest s
                  | Ok _ => conclude (Ok (Some c)) s
                  end
              | BPassing =>
                  let s := bemit [BCame msg; BReply msg] s in
                  if last_response msg then b_wait BDone s else s
              | BDone => s
              end
          end
    end.
  Definition b_run (now : bytes) (up : bool) (es : list bevent) : bst := fold_left b_step es (b_start now up).
End Svc.
