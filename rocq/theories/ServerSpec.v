(** Specification of what an LDAP server owes its client: which responses answer which request, and
    what a session's identity, a password change and a search result must be. *)
From Verif Require Import Base BerModel LdapModel LdapSpec Utf8Model DnModel EntryModel MatchModel LdifModel PwModel PwSpec
  InmemModel InmemSpec ServerModel.

(** ** Requests and their final responses *)
(** RFC 4511: the requests that are answered by exactly one final response *)
Definition expects_answer (req : obj) : Prop :=
  match req with
  | OBindReq _ _ _ _ | OSearchReq _ _ _ _ _ _ _ _ _ | OModReq _ _ _ | OAddReq _ _ _ | OStr KDelReq _ _
  | OModDNReq _ _ _ _ _ | OCmpReq _ _ _ | OExtReq _ _ _ => True
  | _ => False
  end.
(** The response is of the kind that ends the request. *)
Definition final_for (req : obj) (r : response) : Prop :=
  match req, r with
  | OBindReq _ _ _ _, BindResponse _ _ | OSearchReq _ _ _ _ _ _ _ _ _, SearchDone _ | OModReq _ _ _, ModifyResponse _
  | OAddReq _ _ _, AddResponse _ | OStr KDelReq _ _, DeleteResponse _ | OModDNReq _ _ _ _ _, ModifyDNResponse _
  | OCmpReq _ _ _, CompareResponse _ | OExtReq _ _ _, ExtendedResponse _ _ _ => True
  | _, _ => False
  end.
Definition result_of (r : response) : result :=
  match r with
  | BindResponse r _ | SearchDone r | ModifyResponse r | AddResponse r | DeleteResponse r | ModifyDNResponse r
  | CompareResponse r | ExtendedResponse r _ _ => r
  | SearchEntry _ _ | SearchReference _ => mkResult 0 [] []
  end.

(** The event is the writing of a response under a message id: the octets are those of that message. *)
Definition sends (ev : sevent) (i : Z) (r : response) : Prop :=
  exists octets, toWire (message_obj i (response_obj r) None) = Ok octets /\ ev = SWrite (VInt i) (response_obj r) octets.
(** A message below the (astronomic) limit of BER lengths *)
Definition sane (i : Z) (r : response) : Prop := obj_size (message_obj i (response_obj r) None) < 256 ^ 127.

(** The message of a response: none, or that of an exception *)
Definition said (text : exn -> bytes) (m : bytes) : Prop := m = [] \/ exists x, m = text x.
(** The name of the password modify operation (RFC 3062) *)
Definition rfc_pw_oid : bytes := B "1.3.6.1.4.1.4203.1.11.1".
(** The fields of a response hold nothing out of the way: such a message; as matched DN none or that of
    an entry; no SASL credentials; as name of an extended response none or that of the password modify
    operation, and no value. *)
Definition plain (text : exn -> bytes) (h : heap) (r : response) : Prop :=
  said text (r_msg (result_of r)) /\
  (r_dn (result_of r) = [] \/
   exists c n, nth_error h c = Some n /\ utf8_encode (dn_text (n_dn n)) = Ok (r_dn (result_of r))) /\
  match r with
  | BindResponse _ c => c = None
  | ExtendedResponse _ n v => (n = None \/ n = Some rfc_pw_oid) /\ v = None
  | _ => True
  end.
(** The answer to request [req] with id [i]: entries, if it is a search, then one final response,
    which is written if it is not beyond the limit of BER lengths. *)
Definition answer (text : exn -> bytes) (h : heap) (i : Z) (req : obj) (w : list sevent) (r : response) : Prop :=
  final_for req r /\ plain text h r /\
  exists es fin, w = es ++ [fin] /\
    (forall ev, In ev es -> exists dn attrs, sends ev i (SearchEntry dn attrs)) /\
    (match req with OSearchReq _ _ _ _ _ _ _ _ _ => True | _ => es = [] end) /\
    (sane i r -> sends fin i r).

(** The answers of a whole conversation: what each message is answered by, in turn. The operation of a
    final response is of the kind that ends the request. *)
Definition final_op (req op : obj) : Prop :=
  match req, op with
  | OBindReq _ _ _ _, OResult KBindResp _ _ _ _ _ | OSearchReq _ _ _ _ _ _ _ _ _, OResult KSearchDone _ _ _ _ _
  | OModReq _ _ _, OResult KModResp _ _ _ _ _ | OAddReq _ _ _, OResult KAddResp _ _ _ _ _
  | OStr KDelReq _ _, OResult KDelResp _ _ _ _ _ | OModDNReq _ _ _ _ _, OResult KModDNResp _ _ _ _ _
  | OCmpReq _ _ _, OResult KCmpResp _ _ _ _ _ | OExtReq _ _ _, OExtResp _ _ _ _ _ _ => True
  | _, _ => False
  end.
Definition ends (id : pv) (req : obj) (fin : sevent) : Prop :=
  (exists x, fin = SDropped x) \/ (exists op octets, fin = SWrite id op octets /\ final_op req op).
Definition is_search (req : obj) : Prop := match req with OSearchReq _ _ _ _ _ _ _ _ _ => True | _ => False end.
(** One message and the events it causes: entries of its own id and then one event that ends it, or, for
    a message that expects no answer, one event. *)
Definition exchange (m : obj) (w : list sevent) : Prop :=
  exists tag id req cs, m = OMessage tag id req cs /\
    ((id = VInt 0 /\ w = [SNotice req]) \/
     (id <> VInt 0 /\ expects_answer req /\ exists es fin, w = es ++ [fin] /\ ends id req fin /\
        (is_search req \/ es = []) /\ forall ev, In ev es -> exists i dn attrs, id = VInt i /\ sends ev i (SearchEntry dn attrs)) \/
     (id <> VInt 0 /\ ~ expects_answer req /\ exists ev, w = [ev])).
(** A message that is not a request *)
Definition not_request (m : obj) : Prop :=
  match m with
  | OMessage _ _ req _ => ~ expects_answer req /\ (forall t, req <> ONull KUnbind t) /\ (forall t z, req <> OInt KAbandon t z)
  | _ => True
  end.

(** ** Directories *)
(** Every DN is text that UTF-8 can encode. *)
Definition dns_encodable (h : heap) : Prop :=
  forall r n, nth_error h r = Some n -> exists b, utf8_encode (dn_text (n_dn n)) = Ok b.
(** The request is not the deletion of an entry that has children. *)
Definition not_nonleaf_delete (lower : str -> str) (io : Z -> Z -> res Z) (depth : nat) (s : srv) (req : obj) : Prop :=
  match req with
  | OStr KDelReq _ b =>
      forall t d r n, utf8_decode b = Ok t -> parse_dn io t = Ok d -> lookup lower depth (v_heap s) (v_root s) d = Ok r ->
        nth_error (v_heap s) r = Some n -> n_parent n = None \/ n_children n = []
  | _ => True
  end.

(** Text: Unicode scalar values. The DNs of a directory are text. *)
Definition is_text (s : str) : Prop := Forall (fun c => 0 <= c < 0x110000 /\ ~ (0xD800 <= c <= 0xDFFF)) s.
Definition text_dns (h : heap) : Prop :=
  forall r n rd a, nth_error h r = Some n -> In rd (n_dn n) -> In a rd -> is_text (a_type a) /\ is_text (a_value a).

(** ** Controls *)
Definition has_critical (cs : list (pv * pv * pv)) : Prop := exists t cr v, In (t, cr, v) cs /\ truthy cr = true.
Definition names_octets (cs : list (pv * pv * pv)) : Prop := forall t cr v, In (t, cr, v) cs -> exists b, t = VBytes b.
Definition no_critical (cs : option (list (pv * pv * pv))) : Prop :=
  match cs with None => True | Some l => forall t cr v, In (t, cr, v) l -> truthy cr = false end.

(** ** Bind *)
Section Bind.
  Variable lower : str -> str.
  Variable io : Z -> Z -> res Z.
  Variable sha : bytes -> bytes.
  Variable depth : nat.

  (** In state [s], message [m] is a version 3 bind to the DN of entry [r], with a simple password
      that this entry admits. (An integer in place of the octets stands for its digits, and a pair of
      small integers in place of SASL fields for two octets: see ServerModel.auth_bytes.) *)
  Definition authenticates (s : srv) (m : obj) (r : ref) : Prop :=
    exists tag id t b auth cs u d n pw,
      m = OMessage tag id (OBindReq t (VInt 3) (VBytes b) auth) cs /\ b <> [] /\
      utf8_decode b = Ok u /\ parse_dn io u = Ok d /\ lookup lower depth (v_heap s) (v_root s) d = Ok r /\
      nth_error (v_heap s) r = Some n /\ auth_bytes auth = Ok pw /\ entry_admits sha lower (n_entry n) pw.
End Bind.
(** Message [m] is a version 3 bind without a name. *)
Definition anonymous (m : obj) : Prop :=
  exists tag id t auth cs, m = OMessage tag id (OBindReq t (VInt 3) (VBytes []) auth) cs.

(** ** Password modify *)
(** The values of the parts of one kind *)
Definition parts_of (k : cls) (l : list obj) : list bytes :=
  flat_map (fun o => match o, k with
                     | OStr KPwUser _ b, KPwUser | OStr KPwOld _ b, KPwOld | OStr KPwNew _ b, KPwNew => [b]
                     | _, _ => []
                     end) l.
(** The request value is a sequence of exactly one new password, no old one, and maybe the identity [me]. *)
Definition asks_new_password (value : pv) (me new : bytes) : Prop :=
  exists b k tag l, value = VBytes b /\
    berDecodeMultiple lookup_id inherit (fromBER (S (length b))) b ctx_pw = Ok [OSeq k tag l] /\
    (forall o, In o l -> exists c t v, o = OStr c t v /\ (c = KPwUser \/ c = KPwOld \/ c = KPwNew)) /\
    parts_of KPwOld l = [] /\ parts_of KPwNew l = [new] /\ (parts_of KPwUser l = [] \/ parts_of KPwUser l = [me]).

(** ** Search *)
(** The attributes of an entry that were asked for: nothing or "*" asks for all. *)
Definition wants_all (attrs : list pv) : Prop := attrs = [] \/ In (VBytes (B "*")) attrs.
(** What is sent of entry [e] when [attrs] were asked for: each pair sent is an attribute asked for,
    with the values that the entry has under that name; or, if all were asked for, an attribute of the
    entry with its values. Nothing asked for is left out. *)
(** [k] names the attribute [a]: as text or octets, whatever the case *)
Definition names (lower : str -> str) (k : bytes) (a : aset) : Prop :=
  exists k', to_bytes k' = Ok k /\ lowv lower k' = lowv lower (s_key a).
Definition same_octets (vs : list pyval) (bs : list bytes) : Prop := Forall2 (fun v b => to_bytes v = Ok b) vs bs.
Definition shows (lower : str -> str) (attrs : list pv) (e : entry) (sent : list (bytes * list bytes)) : Prop :=
  (forall k bs, In (k, bs) sent ->
     (wants_all attrs \/ In (VBytes k) attrs) /\
     exists a vs, In a (e_attrs e) /\ names lower k a /\ (forall v, In v vs <-> In v (s_vals a)) /\ same_octets vs bs) /\
  (forall a v, In a (e_attrs e) -> In v (s_vals a) ->
     (wants_all attrs -> exists k bs b, In (k, bs) sent /\ names lower k a /\ to_bytes v = Ok b /\ In b bs) /\
     (~ wants_all attrs -> forall k, In (VBytes k) attrs -> names lower k a -> exists bs, In (k, bs) sent)).
Definition scope_of (z : Z) : option scope :=
  if z =? 0 then Some ScBase else if z =? 1 then Some ScOne else if z =? 2 then Some ScSub else None.
(** The event of entry [c], found by filter [f]: its DN, and of its attributes those asked for *)
Definition sent_for (lower : str -> str) (odd_match : obj -> entry -> res bool) (i : Z) (f : obj) (attrs : list pv) (h : heap) (c : ref) (ev : sevent) : Prop :=
  exists n name sent, nth_error h c = Some n /\ matchf lower odd_match (n_entry n) f = Ok true /\ sends ev i (SearchEntry name sent) /\
    utf8_encode (dn_text (n_dn n)) = Ok name /\ shows lower attrs (n_entry n) sent.
(** The attribute dicts of a directory have no key twice. *)
Definition heap_keys (lower : str -> str) (h : heap) : Prop := forall r n, nth_error h r = Some n -> keys_distinct lower (n_entry n).
(** An entry of plain data: names and values can be encoded, and the values of an attribute are all
    text or all octets *)
Definition plain_entry (e : entry) : Prop :=
  (exists b, utf8_encode (dn_text (e_dn e)) = Ok b) /\
  forall a, In a (e_attrs e) -> (exists b, to_bytes (s_key a) = Ok b) /\ (forall v, In v (s_vals a) -> exists b, to_bytes v = Ok b) /\
    ((forall v, In v (s_vals a) -> exists b, v = PBytes b) \/ (forall v, In v (s_vals a) -> exists t, v = PStr t)).
(** Names of attributes that are UTF-8 *)
Definition names_utf8 (attrs : list pv) : Prop := forall b, In (VBytes b) attrs -> exists s, utf8_decode b = Ok s.

(** ** Changes *)
(** The code of the response that tells of an operation that ended so *)
Definition told (o : res unit) : Z := match o with Ok _ => 0 | Err (ELdap c) => c | Err _ => 2 end.
(** The attributes of an add request, each name once *)
Definition merged (ats : list (bytes * list bytes)) (a : attrs) : Prop :=
  NoDup (map fst a) /\
  (forall k, (exists vs, In (k, vs) a) <-> exists b bs, k = PBytes b /\ In (b, bs) ats) /\
  (forall k v, (exists vs, In (k, vs) a /\ In v vs) <-> exists b bs w, k = PBytes b /\ In (b, bs) ats /\ v = PBytes w /\ In w bs).
(** The operation on the directory that a request is for *)
Inductive asks (io : Z -> Z -> res Z) : request -> hop -> Prop :=
| asks_add b ats t rd up a : utf8_decode b = Ok t -> parse_dn io t = Ok (rd :: up) -> parse_rdn io (rdn_text rd) = Ok rd ->
    merged ats a -> asks io (AddReq b ats) (HAdd up rd a)
| asks_delete b t d : utf8_decode b = Ok t -> parse_dn io t = Ok d -> asks io (Delete b) (HDelete d).
(** An event tells the outcome of a request: a response of the request's kind; the refusal to delete
    an entry with children, however, is dropped. *)
Definition tells (text : exn -> bytes) (i : Z) (req : request) (o : res unit) (ev : sevent) : Prop :=
  match req with
  | AddReq _ _ => exists m, said text m /\ (sane i (AddResponse (mkResult (told o) [] m)) -> sends ev i (AddResponse (mkResult (told o) [] m)))
  | Delete _ =>
      if told o =? 66 then exists x, ev = SDropped x
      else exists m, said text m /\ (sane i (DeleteResponse (mkResult (told o) [] m)) -> sends ev i (DeleteResponse (mkResult (told o) [] m)))
  | _ => False
  end.
(** A modification and what it is on the directory's side *)
Definition kind_of_mod (z : Z) (k : kind) : Prop := (z = 0 /\ k = MAdd) \/ (z = 1 /\ k = MDelete) \/ (z = 2 /\ k = MReplace).
Definition is_mod (m : modification) (d : delta) : Prop :=
  kind_of_mod (m_op m) (d_kind d) /\ d_key d = PBytes (m_attr m) /\ NoDup (d_vals d) /\
  forall v, In v (d_vals d) <-> exists b, v = PBytes b /\ In b (m_values m).
(** The DN that a request names can be read, and writing its first RDN and reading it gives it back. *)
Definition readable (io : Z -> Z -> res Z) (req : request) : Prop :=
  match req with
  | AddReq b _ => exists u rd up, utf8_decode b = Ok u /\ parse_dn io u = Ok (rd :: up) /\ parse_rdn io (rdn_text rd) = Ok rd
  | Delete b => exists u d, utf8_decode b = Ok u /\ parse_dn io u = Ok d
  | _ => False
  end.
