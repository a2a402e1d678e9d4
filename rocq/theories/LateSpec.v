(** Specification of a server in front of a directory that answers later: what may be asked of the
    directory for a request, who is logged in, and which response a request gets. All of it is about
    what happened: the sequence of requests, calls, firings and messages. *)
From Verif Require Import Base BerModel LdapModel LdapSpec Utf8Model DnModel EntryModel DeltaModel MatchModel
  ServerModel ServerSpec LateModel.

(** [P] holds of each event, given what came before it *)
Definition each (P : list tev -> tev -> Prop) (t : list tev) : Prop := forall a e b, t = a ++ e :: b -> P a e.

(** ** Responses *)
(** Request [k] came *)
Definition came (t : list tev) (k : nat) (id : pv) (req : obj) (cs : option (list (pv * pv * pv))) (names : ent -> dn) : Prop :=
  In (TGot k id req cs names) t.
(** The result of request [k] in an event: it is written, or it is logged that it cannot be *)
Definition result_in (k : nat) (e : tev) : list obj :=
  match e with
  | TWrite k' _ (OSearchEntry _ _ _) _ => []
  | TWrite k' _ op _ | TUnsent k' op _ => if Nat.eqb k k' then [op] else []
  | _ => []
  end.
Definition results (k : nat) (t : list tev) : list obj := flat_map (result_in k) t.
(** The response is one to the request: of the request's kind; an abandon request is unknown to the
    server and answered by an extended response *)
Definition answers (req op : obj) : Prop :=
  final_op req op \/ ((exists t z, req = OInt KAbandon t z) /\ exists t c d m n v, op = OExtResp t c d m n v).
Definition code (op : obj) : Z :=
  match op with OResult _ _ (VInt c) _ _ _ | OExtResp _ (VInt c) _ _ _ _ => c | _ => -1 end.
Definition is_entry (op : obj) : Prop := match op with OSearchEntry _ _ _ => True | _ => False end.
(** The requests that the server answers itself: a bind without a name, a search for the root DSE *)
Definition unasked (req : obj) : Prop :=
  match req with
  | OBindReq _ _ (VBytes []) _ | OSearchReq _ (VBytes []) (VInt 0) _ _ _ _ _ _ => True
  | _ => False
  end.
(** An entry is one that the request's search called back with, and shows the attributes asked for; or it
    is the root DSE *)
Definition entry_for (lower : str -> str) (oc_first : bool) (root : ent) (req : obj) (names : ent -> dn) (op : obj) : Prop :=
  exists t v scope deref size time types f attrs, req = OSearchReq t v scope deref size time types f attrs /\
    ((exists e, entry_response lower oc_first attrs e = Ok op) \/ (unasked req /\ op = root_dse (names root))).
(** A message that was written, given what came before: under the id of its request, in the octets of the
    message; an entry for a search, or the first result of the request. Not after the connection was lost *)
Definition written (lower : str -> str) (oc_first : bool) (root : ent) (a : list tev) (e : tev) : Prop :=
  match e with
  | TWrite k id op b =>
      ~ In TLost a /\ toWire (OMessage (class_tag KMessage) id op None) = Ok b /\
      exists req cs names, came a k id req cs names /\
        ((is_entry op /\ entry_for lower oc_first root req names op) \/ (~ is_entry op /\ answers req op /\ results k a = []))
  | TUnsent k op x =>
      exists id req cs names, came a k id req cs names /\ ~ is_entry op /\ answers req op /\ results k a = [] /\
        (In TLost a \/ toWire (OMessage (class_tag KMessage) id op None) = Err x)
  | _ => True
  end.

(** ** Calls *)
(** Call [n], for request [k], gave [o] *)
Definition gave (t : list tev) (n k : nat) (c : call) (r : dres) : Prop := In (TCall n k c) t /\ In (TFired n r) t.
(** The directory found entry [e] for request [k] *)
Definition found (t : list tev) (k : nat) (e : ent) : Prop := exists n d, gave t n k (CLookup d) (DOk (Some e)).
Section Due.
  Variable io : Z -> Z -> res Z.
  (** The new name that a request asks for *)
  Definition renames (v newrdn newSup : pv) (to : dn) : Prop :=
    exists d b t rd sup, to_dn io v = Ok d /\ newrdn = VBytes b /\ utf8_decode b = Ok t /\ parse_rdn io t = Ok rd /\
      to = rd :: sup /\ ((newSup = VNone /\ sup = tl d) \/ (newSup <> VNone /\ to_dn io newSup = Ok sup)).
  (** The entry to look up for a request *)
  Definition looks_up (req : obj) (d : dn) : Prop :=
    match req with
    | OBindReq _ _ v _ | OSearchReq _ v _ _ _ _ _ _ _ | OCmpReq _ v _ | OModDNReq _ v _ _ _ => to_dn io v = Ok d
    | OStr KDelReq _ b => to_dn io (VBytes b) = Ok d
    | OAddReq _ v _ => exists rd, to_dn io v = Ok (rd :: d)
    | _ => False
    end.
  (** [who] is logged in when the call is made; what the call is about is what the request says, on
      an entry that the directory found for this request *)
  Definition due (who : option ent) (a : list tev) (k : nat) (req : obj) (names : ent -> dn) (c : call) : Prop :=
    match c with
    | CLookup d => looks_up req d
    | CBind e auth => found a k e /\ exists t v, req = OBindReq t (VInt 3) v auth
    | CSearch e f attrs scope deref size time types => found a k e /\ exists t v, req = OSearchReq t v scope deref size time types f attrs
    | CCompare e f => found a k e /\ exists t v c' t' x y, req = OCmpReq t v (OAva c' t' x y) /\ f = OAva KEq (class_tag KEq) x y
    | CDelete e => found a k e /\ exists t b, req = OStr KDelReq t b
    | CAdd e rd attrs => found a k e /\ exists t v l r up, req = OAddReq t v l /\ to_dn io v = Ok (r :: up) /\ rd = rdn_text r /\ add_attrs l = Ok attrs
    | CMove e to => found a k e /\ exists t v rd del sup, req = OModDNReq t v rd del sup /\ truthy del = true /\ renames v rd sup to
    | CPatch d ms => from_ldap io req = Ok (d, ms)
    | CCommit e => exists n d ms, gave a n k (CPatch d ms) (DOk (Some e))
    | CPassword e new =>
        who = Some e /\ exists t v me, req = OExtReq t (VBytes rfc_pw_oid) v /\ asks_new_password v me new /\
          (utf8_encode (dn_text (names e)) = Ok me \/ forall me', asks_new_password v me' new)
    end.
End Due.

(** ** Who is logged in *)
(** The binds that the directory was asked for, and the user: that of the last bind that the directory
    granted; none after a version 3 bind without a name *)
Definition who_step (s : list nat * option ent) (e : tev) : list nat * option ent :=
  match e with
  | TCall n _ (CBind _ _) => (n :: fst s, snd s)
  | TFired n (DOk o) => if existsb (Nat.eqb n) (fst s) then (fst s, o) else s
  | TGot _ _ (OBindReq _ (VInt 3) (VBytes []) _) cs _ =>
      if match cs with None => true | Some l => forallb (fun c => negb (truthy (snd (fst c)))) l end then (fst s, None) else s
  | _ => s
  end.
Definition who (t : list tev) : option ent := snd (fold_left who_step t ([], None)).

(** A call, given what came before: it is a new one, for a request that has no result yet and no
    critical control, and due *)
Definition called (io : Z -> Z -> res Z) (a : list tev) (e : tev) : Prop :=
  match e with
  | TCall n k c =>
      (forall k' c', ~ In (TCall n k' c') a) /\ results k a = [] /\
      exists id req cs names, came a k id req cs names /\ no_critical cs /\ due io (who a) a k req names c
  | TFired n r => (exists k c, In (TCall n k c) a) /\ forall r', ~ In (TFired n r') a
  | TGot k _ _ _ _ => forall id req cs names, ~ came a k id req cs names
  | _ => True
  end.
(** The calls for request [k] *)
Definition calls_for (k : nat) (t : list tev) : list call :=
  flat_map (fun e => match e with TCall _ k' c => if Nat.eqb k k' then [c] else [] | _ => [] end) t.

(** ** What a result says *)
(** The call that a request is for, after those that find its entry *)
Definition main_call (req : obj) (c : call) : Prop :=
  match req, c with
  | OBindReq _ _ _ _, CBind _ _ | OSearchReq _ _ _ _ _ _ _ _ _, CSearch _ _ _ _ _ _ _ _ | OCmpReq _ _ _, CCompare _ _
  | OStr KDelReq _ _, CDelete _ | OAddReq _ _ _, CAdd _ _ _ | OModDNReq _ _ _ _ _, CMove _ _ | OModReq _ _ _, CCommit _
  | OExtReq _ _ _, CPassword _ _ => True
  | _, _ => False
  end.
(** The directory did what the request is for; of a bind and a password change it also has to give
    something *)
Definition worked (t : list tev) (k : nat) (req : obj) (o : option ent) : Prop :=
  exists n c, gave t n k c (DOk o) /\ main_call req c /\
    match req with OBindReq _ _ _ _ | OExtReq _ _ _ => o <> None | _ => True end.
(** The code for a failure of call [c] *)
Definition failure_code (req : obj) (c : call) (x : exn) : Z :=
  match req, c, x with
  | OBindReq _ _ _ _, CLookup _, ELdap 32 => 49
  | _, _, ELdap z => z
  | (OSearchReq _ _ _ _ _ _ _ _ _ | OCmpReq _ _ _), _, _ => 80
  | _, _, _ => 2
  end.
(** A result of request [k], given what came before: the code of the failure if a call failed; and if
    none did, success, or what a comparison found, only if the directory said so *)
Definition truth (a : list tev) (k : nat) (req op : obj) : Prop :=
  (forall n c x m, gave a n k c (DErr x m) -> code op = failure_code req c x) /\
  ((forall n c x m, ~ gave a n k c (DErr x m)) ->
   (code op = 0 -> unasked req \/ exists o, worked a k req o) /\
   (code op = 6 -> unasked req \/ exists e, worked a k req (Some e)) /\
   (code op = 5 -> unasked req \/ worked a k req None)).
Definition truthful (a : list tev) (e : tev) : Prop :=
  forall k op id req cs names, result_in k e = [op] -> came a k id req cs names -> truth a k req op.

(** ** A directory that does not call back for a search that has ended *)
Definition tidy (run : list levent -> late) (es : list levent) : Prop :=
  forall a n e b, es = a ++ EEntry n e :: b -> forall r, ~ In (TFired n r) (l_trace (run a)).
(** An entry comes before the result of its search *)
Definition entries_first (a : list tev) (e : tev) : Prop :=
  match e with TWrite k _ (OSearchEntry _ _ _) _ => results k a = [] | _ => True end.
