(** Independent specification of LDAP messages: the abstract syntax of RFC 4511,
    how a program builds the corresponding objects through the API ([..._obj]),
    and how a program reads an object that it received ([read_...]). *)
From Verif Require Import Base LdapModel.

(** ** Universal BER values *)
Inductive value :=
| UBool (b : bool) | UInt (z : Z) | UStr (s : bytes) | UNull | UEnum (z : Z)
| USeq (l : list value) | USet (l : list value).

(** BERBoolean(b), BERInteger(z), BEROctetString(s), ... with their default tags. *)
Fixpoint value_obj (v : value) : obj :=
  match v with
  | UBool b => OBool KBoolean (class_tag KBoolean) (if b then 0xFF else 0)
  | UInt z => OInt KInteger (class_tag KInteger) z
  | UStr s => OStr KOctet (class_tag KOctet) s
  | UNull => ONull KNull (class_tag KNull)
  | UEnum z => OInt KEnum (class_tag KEnum) z
  | USeq l => OSeq KSeq (class_tag KSeq) (map value_obj l)
  | USet l => OSeq KSet (class_tag KSet) (map value_obj l)
  end.

(** ** Filters, RFC 4511 section 4.5.1.7 *)
Inductive subkind := SInitial | SAny | SFinal.

Inductive filter :=
| FAnd (l : list filter)
| FOr (l : list filter)
| FNot (f : filter)
| FEq (attr value : bytes)
| FSubstr (attr : bytes) (parts : list (subkind * bytes))
| FGe (attr value : bytes)
| FLe (attr value : bytes)
| FPresent (attr : bytes)
| FApprox (attr value : bytes)
| FExt (rule attr : option bytes) (value : bytes) (dnAttributes : option bool).

(** Induction principle that reaches below and/or. *)
Section FilterInd.
  Variable P : filter -> Prop.
  Hypothesis HAnd : forall l, Forall P l -> P (FAnd l).
  Hypothesis HOr : forall l, Forall P l -> P (FOr l).
  Hypothesis HNot : forall f, P f -> P (FNot f).
  Hypothesis HEq : forall a v, P (FEq a v).
  Hypothesis HSubstr : forall a l, P (FSubstr a l).
  Hypothesis HGe : forall a v, P (FGe a v).
  Hypothesis HLe : forall a v, P (FLe a v).
  Hypothesis HPresent : forall a, P (FPresent a).
  Hypothesis HApprox : forall a v, P (FApprox a v).
  Hypothesis HExt : forall r a v d, P (FExt r a v d).
  Fixpoint filter_ind' (f : filter) : P f :=
    let all := fix all l : Forall P l :=
      match l with [] => Forall_nil _ | x :: r => Forall_cons _ (filter_ind' x) (all r) end in
    match f with
    | FAnd l => HAnd l (all l)
    | FOr l => HOr l (all l)
    | FNot g => HNot g (filter_ind' g)
    | FEq a v => HEq a v
    | FSubstr a l => HSubstr a l
    | FGe a v => HGe a v
    | FLe a v => HLe a v
    | FPresent a => HPresent a
    | FApprox a v => HApprox a v
    | FExt r a v d => HExt r a v d
    end.
End FilterInd.

(** LDAPString, LDAPAttributeDescription, LDAPAssertionValue, LDAPOID and LDAPAttributeValue
    are BEROctetString under other names (pureldap.py 60-67, 448, 729, 1481): class [KOctet]. *)
Definition octets (b : bytes) : obj := OStr KOctet (class_tag KOctet) b.

Definition sub_obj (p : subkind * bytes) : obj :=
  match p with
  | (SInitial, b) => OStr KSubInitial (class_tag KSubInitial) b
  | (SAny, b) => OStr KSubAny (class_tag KSubAny) b
  | (SFinal, b) => OStr KSubFinal (class_tag KSubFinal) b
  end.

Fixpoint filter_obj (f : filter) : obj :=
  match f with
  | FAnd l => OSeq KAnd (class_tag KAnd) (map filter_obj l)
  | FOr l => OSeq KOr (class_tag KOr) (map filter_obj l)
  | FNot g => ONot (class_tag KNot) (filter_obj g)
  | FEq a v => OAva KEq (class_tag KEq) (octets a) (octets v)
  | FSubstr a l => OSubstr (class_tag KSubstr) (VBytes a) (map sub_obj l)
  | FGe a v => OAva KGe (class_tag KGe) (octets a) (octets v)
  | FLe a v => OAva KLe (class_tag KLe) (octets a) (octets v)
  | FPresent a => OStr KPresent (class_tag KPresent) a
  | FApprox a v => OAva KApprox (class_tag KApprox) (octets a) (octets v)
  | FExt r a v d =>
      OMra (class_tag KExt) (option_map (OStr KMraRule (class_tag KMraRule)) r) (option_map (OStr KMraType (class_tag KMraType)) a)
           (OStr KMraValue (class_tag KMraValue) v)
           (option_map (fun b : bool => OBool KMraDn (class_tag KMraDn) (if b then 0xFF else 0)) d)
  end.

(** ** Messages *)
Record control := mkControl {
  c_oid : bytes; c_critical : option bool; c_value : option bytes }.

Inductive authentication :=
| Simple (password : bytes)
| Sasl (mechanism : bytes) (credentials : option bytes).

Record modification := mkMod { m_op : Z; m_attr : bytes; m_values : list bytes }.

Inductive request :=
| Bind (version : Z) (dn : bytes) (auth : authentication)
| Unbind
| Search (base : bytes) (scope deref sizeLimit timeLimit : Z) (typesOnly : bool)
         (f : filter) (attrs : list bytes)
| Modify (dn : bytes) (mods : list modification)
| AddReq (dn : bytes) (attrs : list (bytes * list bytes))
| Delete (dn : bytes)
| ModifyDN (dn newrdn : bytes) (deleteoldrdn : bool) (newSuperior : option bytes)
| Compare (dn attr value : bytes)
| Abandon (id : Z)
| Extended (name : bytes) (value : option bytes).

Record result := mkResult { r_code : Z; r_dn : bytes; r_msg : bytes }.

Inductive response :=
| BindResponse (r : result) (saslCreds : option bytes)
| SearchEntry (dn : bytes) (attrs : list (bytes * list bytes))
| SearchDone (r : result)
| SearchReference (uris : list bytes)
| ModifyResponse (r : result)
| AddResponse (r : result)
| DeleteResponse (r : result)
| ModifyDNResponse (r : result)
| CompareResponse (r : result)
| ExtendedResponse (r : result) (name value : option bytes).

(** Python's True and False as passed by a caller. *)
Definition pybool (b : bool) : pv := VInt (if b then 1 else 0).
Definition pyopt {A} (f : A -> pv) (o : option A) : pv :=
  match o with Some a => f a | None => VNone end.

(** The objects that the API's constructors make. *)
Definition mod_obj (m : modification) : obj :=
  OSeq KSeq (class_tag KSeq) [OInt KEnum (class_tag KEnum) (m_op m);
                  OSeq KSeq (class_tag KSeq) [octets (m_attr m); OSeq KSet (class_tag KSet) (map octets (m_values m))]].
Definition attr_obj (a : bytes * list bytes) : obj :=
  OSeq KSeq (class_tag KSeq) [octets (fst a); OSeq KSet (class_tag KSet) (map octets (snd a))].

Definition request_obj (r : request) : obj :=
  match r with
  | Bind v dn (Simple pw) => OBindReq (class_tag KBindReq) (VInt v) (VBytes dn) (ASimple (VBytes pw))
  | Bind v dn (Sasl m c) => OBindReq (class_tag KBindReq) (VInt v) (VBytes dn) (ASasl (VBytes m) (pyopt VBytes c))
  | Unbind => ONull KUnbind (class_tag KUnbind)
  | Search b sc de si ti ty f at_ =>
      OSearchReq (class_tag KSearchReq) (VBytes b) (VInt sc) (VInt de) (VInt si) (VInt ti) (pybool ty)
                 (filter_obj f) (map VBytes at_)
  | Modify dn ms => OModReq (class_tag KModReq) (VBytes dn) (map mod_obj ms)
  | AddReq dn ats => OAddReq (class_tag KAddReq) (VBytes dn) (OSeq KSeq (class_tag KSeq) (map attr_obj ats))
  | Delete dn => OStr KDelReq (class_tag KDelReq) dn
  | ModifyDN dn nr d ns => OModDNReq (class_tag KModDNReq) (VBytes dn) (VBytes nr) (pybool d) (pyopt VBytes ns)
  | Compare dn a v => OCmpReq (class_tag KCmpReq) (VBytes dn) (OAva KAva (class_tag KAva) (octets a) (octets v))
  | Abandon i => OInt KAbandon (class_tag KAbandon) i
  | Extended n v => OExtReq (class_tag KExtReq) (VBytes n) (pyopt VBytes v)
  end.

Definition result_obj (k : cls) (tag : Z) (r : result) (creds : pv) : obj :=
  OResult k tag (VInt (r_code r)) (VBytes (r_dn r)) (VBytes (r_msg r)) creds.

Definition response_obj (r : response) : obj :=
  match r with
  | BindResponse r c => result_obj KBindResp (class_tag KBindResp) r (pyopt VBytes c)
  | SearchEntry dn ats =>
      OSearchEntry (class_tag KSearchEntry) (VBytes dn) (map (fun a => (VBytes (fst a), map VBytes (snd a))) ats)
  | SearchDone r => result_obj KSearchDone (class_tag KSearchDone) r VNone
  | SearchReference us => OSearchRef (class_tag KSearchRef) (map (OStr KString (class_tag KString)) us)
  | ModifyResponse r => result_obj KModResp (class_tag KModResp) r VNone
  | AddResponse r => result_obj KAddResp (class_tag KAddResp) r VNone
  | DeleteResponse r => result_obj KDelResp (class_tag KDelResp) r VNone
  | ModifyDNResponse r => result_obj KModDNResp (class_tag KModDNResp) r VNone
  | CompareResponse r => result_obj KCmpResp (class_tag KCmpResp) r VNone
  | ExtendedResponse r n v =>
      OExtResp (class_tag KExtResp) (VInt (r_code r)) (VBytes (r_dn r)) (VBytes (r_msg r))
               (pyopt VBytes n) (pyopt VBytes v)
  end.

(** LDAPMessage(op, controls=[(oid, critical, value), ...], id=i); [None] means no controls. *)
Definition control_args (c : control) : pv * pv * pv :=
  (VBytes (c_oid c), pyopt pybool (c_critical c), pyopt VBytes (c_value c)).
Definition message_obj (id : Z) (op : obj) (cs : option (list control)) : obj :=
  OMessage (class_tag KMessage) (VInt id) op (option_map (map control_args) cs).

(** ** Reading what was received *)
Definition rd_bytes (v : pv) : option bytes := match v with VBytes b => Some b | _ => None end.
Definition rd_int (v : pv) : option Z := match v with VInt z => Some z | _ => None end.
(** A flag is read by its truth value, as [if flag:] does. *)
Definition rd_flag (v : pv) : option bool :=
  match v with VInt z => Some (negb (z =? 0)) | _ => None end.
(** An optional field: [Some None] when it is None. *)
Definition rd_opt {A} (f : pv -> option A) (v : pv) : option (option A) :=
  match v with VNone => Some None | _ => option_map Some (f v) end.

Fixpoint all_some {A} (l : list (option A)) : option (list A) :=
  match l with
  | [] => Some []
  | Some a :: r => option_map (cons a) (all_some r)
  | None :: _ => None
  end.

Definition rd_octets (o : obj) : option bytes :=
  match o with OStr _ _ b => Some b | _ => None end.

Definition rd_sub (o : obj) : option (subkind * bytes) :=
  match o with
  | OStr KSubInitial _ b => Some (SInitial, b)
  | OStr KSubAny _ b => Some (SAny, b)
  | OStr KSubFinal _ b => Some (SFinal, b)
  | _ => None
  end.

Definition opt2 {A B C} (f : A -> B -> C) (a : option A) (b : option B) : option C :=
  match a, b with Some a, Some b => Some (f a b) | _, _ => None end.

Fixpoint read_filter (o : obj) : option filter :=
  match o with
  | OSeq KAnd _ l => option_map FAnd (all_some (map read_filter l))
  | OSeq KOr _ l => option_map FOr (all_some (map read_filter l))
  | ONot _ x => option_map FNot (read_filter x)
  | OAva KEq _ a v => opt2 FEq (rd_octets a) (rd_octets v)
  | OAva KGe _ a v => opt2 FGe (rd_octets a) (rd_octets v)
  | OAva KLe _ a v => opt2 FLe (rd_octets a) (rd_octets v)
  | OAva KApprox _ a v => opt2 FApprox (rd_octets a) (rd_octets v)
  | OSubstr _ a l => opt2 FSubstr (rd_bytes a) (all_some (map rd_sub l))
  | OStr KPresent _ a => Some (FPresent a)
  | OMra _ r a v d =>
      match v with
      | OStr _ _ v =>
          Some (FExt match r with Some (OStr _ _ b) => Some b | _ => None end
                     match a with Some (OStr _ _ b) => Some b | _ => None end
                     v
                     match d with Some (OBool _ _ z) => Some (negb (z =? 0)) | _ => None end)
      | _ => None
      end
  | _ => None
  end.

Definition rd_attr (o : obj) : option (bytes * list bytes) :=
  match o with
  | OSeq _ _ [a; OSeq _ _ vs] =>
      opt2 pair (rd_octets a) (all_some (map rd_octets vs))
  | _ => None
  end.

Definition rd_mod (o : obj) : option modification :=
  match o with
  | OSeq _ _ [OInt _ _ op; av] => option_map (fun p => mkMod op (fst p) (snd p)) (rd_attr av)
  | _ => None
  end.

Definition read_request (o : obj) : option request :=
  match o with
  | OBindReq _ v dn (ASimple pw) =>
      match rd_int v, rd_bytes dn, rd_bytes pw with
      | Some v, Some dn, Some pw => Some (Bind v dn (Simple pw)) | _, _, _ => None end
  | OBindReq _ v dn (ASasl m c) =>
      match rd_int v, rd_bytes dn, rd_bytes m, rd_opt rd_bytes c with
      | Some v, Some dn, Some m, Some c => Some (Bind v dn (Sasl m c)) | _, _, _, _ => None end
  | ONull KUnbind _ => Some Unbind
  | OSearchReq _ b sc de si ti ty f at_ =>
      match rd_bytes b, rd_int sc, rd_int de, rd_int si, rd_int ti, rd_flag ty,
            read_filter f, all_some (map rd_bytes at_) with
      | Some b, Some sc, Some de, Some si, Some ti, Some ty, Some f, Some at_ =>
          Some (Search b sc de si ti ty f at_)
      | _, _, _, _, _, _, _, _ => None
      end
  | OModReq _ dn ms => opt2 Modify (rd_bytes dn) (all_some (map rd_mod ms))
  | OAddReq _ dn (OSeq _ _ ats) => opt2 AddReq (rd_bytes dn) (all_some (map rd_attr ats))
  | OStr KDelReq _ dn => Some (Delete dn)
  | OModDNReq _ dn nr d ns =>
      match rd_bytes dn, rd_bytes nr, rd_flag d, rd_opt rd_bytes ns with
      | Some dn, Some nr, Some d, Some ns => Some (ModifyDN dn nr d ns) | _, _, _, _ => None end
  | OCmpReq _ dn (OAva KAva _ a v) =>
      match rd_bytes dn, rd_octets a, rd_octets v with
      | Some dn, Some a, Some v => Some (Compare dn a v) | _, _, _ => None end
  | OInt KAbandon _ i => Some (Abandon i)
  | OExtReq _ n v => opt2 Extended (rd_bytes n) (rd_opt rd_bytes v)
  | _ => None
  end.

Definition rd_result (c d m : pv) : option result :=
  match rd_int c, rd_bytes d, rd_bytes m with
  | Some c, Some d, Some m => Some (mkResult c d m) | _, _, _ => None end.

Definition rd_entry_attr (a : pv * list pv) : option (bytes * list bytes) :=
  opt2 pair (rd_bytes (fst a)) (all_some (map rd_bytes (snd a))).

Definition read_response (o : obj) : option response :=
  match o with
  | OResult KBindResp _ c d m s => opt2 BindResponse (rd_result c d m) (rd_opt rd_bytes s)
  | OResult KSearchDone _ c d m _ => option_map SearchDone (rd_result c d m)
  | OResult KModResp _ c d m _ => option_map ModifyResponse (rd_result c d m)
  | OResult KAddResp _ c d m _ => option_map AddResponse (rd_result c d m)
  | OResult KDelResp _ c d m _ => option_map DeleteResponse (rd_result c d m)
  | OResult KModDNResp _ c d m _ => option_map ModifyDNResponse (rd_result c d m)
  | OResult KCmpResp _ c d m _ => option_map CompareResponse (rd_result c d m)
  | OSearchEntry _ dn ats => opt2 SearchEntry (rd_bytes dn) (all_some (map rd_entry_attr ats))
  | OSearchRef _ us => option_map SearchReference (all_some (map rd_octets us))
  | OExtResp _ c d m n v =>
      match rd_result c d m, rd_opt rd_bytes n, rd_opt rd_bytes v with
      | Some r, Some n, Some v => Some (ExtendedResponse r n v) | _, _, _ => None end
  | _ => None
  end.

Definition rd_control (c : pv * pv * pv) : option control :=
  let '(t, cr, v) := c in
  match rd_bytes t, rd_opt rd_flag cr, rd_opt rd_bytes v with
  | Some t, Some cr, Some v => Some (mkControl t cr v) | _, _, _ => None end.

Definition read_message {A} (read_op : obj -> option A) (o : obj)
  : option (Z * A * option (list control)) :=
  match o with
  | OMessage _ i op cs =>
      match rd_int i, read_op op,
            match cs with
            | None => Some None
            | Some cs => option_map Some (all_some (map rd_control cs))
            end with
      | Some i, Some op, Some cs => Some (i, op, cs)
      | _, _, _ => None
      end
  | _ => None
  end.

(** ** A generous bound on the encoded size
    Field octets, plus 130 for every element that may be built. Used only to say that
    encoding cannot fail below the (astronomic) limit of BER lengths, 256^127. *)
Definition pv_size (v : pv) : Z :=
  match v with
  | VNone => 0
  | VInt z => 130 + Z.log2 (Z.abs z) + 2
  | VBytes b => 130 + zlen b
  end.
Definition zsum (l : list Z) : Z := fold_right Z.add 0 l.
Definition auth_size (a : bauth) : Z :=
  match a with ASimple p => pv_size p | ASasl m c => 130 + pv_size m + pv_size c end.

Fixpoint obj_size (o : obj) : Z :=
  let opt := fun o => match o with Some x => obj_size x | None => 0 end in
  match o with
  | OBool _ _ _ => 132
  | OInt _ _ v => pv_size (VInt v)
  | OStr _ _ v => pv_size (VBytes v)
  | ONull _ _ => 132
  | OSeq _ _ l => 130 + zsum (map obj_size l)
  | ONot _ v => 130 + obj_size v
  | OAva _ _ a v => 130 + obj_size a + obj_size v
  | OSubstr _ t subs => 260 + pv_size t + zsum (map obj_size subs)
  | OMra _ r t v d => 130 + opt r + opt t + obj_size v + opt d
  | OMessage _ i v cs =>
      130 + pv_size i + obj_size v +
      match cs with
      | Some l => 130 + zsum (map (fun '(t, cr, cv) => 130 + pv_size t + pv_size cr + pv_size cv) l)
      | None => 0
      end
  | OControl _ t cr v => 130 + pv_size t + pv_size cr + pv_size v
  | OBindReq _ v dn a => 130 + pv_size v + pv_size dn + auth_size a
  | OSearchRef _ us => 130 + zsum (map obj_size us)
  | OResult _ _ c d m s => 130 + pv_size c + pv_size d + pv_size m + pv_size s
  | OExtResp _ c d m n r => 130 + pv_size c + pv_size d + pv_size m + pv_size n + pv_size r
  | OSearchReq _ b s d si ti ty f ats =>
      260 + pv_size b + pv_size s + pv_size d + pv_size si + pv_size ti + pv_size ty
      + obj_size f + zsum (map pv_size ats)
  | OSearchEntry _ n ats =>
      260 + pv_size n +
      zsum (map (fun '(a, vs) => 260 + pv_size a + zsum (map pv_size vs)) ats)
  | OModReq _ d ms => 260 + pv_size d + zsum (map obj_size ms)
  | OAddReq _ d a => 130 + pv_size d + obj_size a
  | OModDNReq _ d n del s => 130 + pv_size d + pv_size n + pv_size del + pv_size s
  | OCmpReq _ d a => 130 + pv_size d + obj_size a
  | OExtReq _ n v => 130 + pv_size n + pv_size v
  end.

(** ** Excluded corner cases, and the context of a search filter *)

(** Not a SASL bind with present but empty credentials. *)
Definition sasl_ok (r : request) : Prop :=
  match r with Bind _ _ (Sasl _ (Some [])) => False | _ => True end.

(** Not a bind response with present but empty SASL credentials. *)
Definition creds_ok (r : response) : Prop :=
  match r with BindResponse _ (Some []) => False | _ => True end.

(** A request as the server reads it: present but empty SASL credentials become absent. *)
Definition seen_request (r : request) : request :=
  match r with Bind v dn (Sasl m (Some [])) => Bind v dn (Sasl m None) | _ => r end.

(** A response as the client reads it: present but empty SASL credentials become absent. *)
Definition seen_response (r : response) : response :=
  match r with BindResponse x (Some []) => BindResponse x None | _ => r end.

(** The context in which a search request decodes its filter. *)
Definition ctx_search : ctx := Ctx T_Filter (Some ctx_ldap) (Some ctx_ldap).
