(** Model of ldaptor/protocols/ldap/ldapsyntax.py: LDAPEntryWithClient (LDAPEntry), the client's
    editable copy of an entry, and its attribute sets. A method that sends gives the requests it has
    sent; what the answer does is a function of its own. Line numbers are those
    of that file. Not modelled: toWire, __eq__, __hash__,
    __repr__, the attribute [complete] (but see SetPwModel, which has setPassword). LDAPEntryWithAutoFill is
    in AutofillModel. *)
From Verif Require Import Base Utf8Model DnModel EntryModel LdapModel DeltaModel UtilModel LdifModel ServerModel.

(** ldapsyntax.py 52-53 ObjectDeletedError, 64-80 CannotRemoveRDNError, 56-57 ObjectDirtyError, 44-45
    DNNotPresentError, and LookupError (109) *)
Definition EDeleted := EUser 40.
Definition ERdn := EUser 41.
Definition EDirty := EUser 42.
Definition ENoDn := EUser 43.
Definition ELookup := EUser 44.

(** The values handed to a method: a list or set, or an iterator, which can be read once. *)
Inductive vseq := Listed (vs : list pyval) | Once (vs : list pyval).
Definition read1 (s : vseq) : list pyval := match s with Listed vs | Once vs => vs end.
Definition read2 (s : vseq) : list pyval := match s with Listed vs => vs | Once _ => [] end.

(** 125-161: the attributes of LDAPEntryWithClient: dn and _attributes, _remoteData, _journal,
    _state (after __init__ only "ready" or "deleted") *)
Record cent := mkCent { y_entry : entry; y_remote : entry; y_journal : list delta; y_deleted : bool }.
Definition with_entry (e : entry) (c : cent) := mkCent e (y_remote c) (y_journal c) (y_deleted c).
Definition y_dn (c : cent) : dn := e_dn (y_entry c).

(** 191-200: _checkState *)
Definition check (c : cent) : res unit := if y_deleted c then Err EDeleted else Ok tt.
(** 202-213: journal *)
Definition journal (m : delta) (c : cent) : cent := mkCent (y_entry c) (y_remote c) (y_journal c ++ [m]) (y_deleted c).

(** 166-176: _canRemove. The parts of a DN are text. *)
Definition can_remove (k v : pyval) (c : cent) : res unit :=
  do _ <- check c;
  match y_dn c with
  | [] => Err EIndex
  | r :: _ => if existsb (fun a => pyval_eqb (PStr (a_type a)) k && pyval_eqb (PStr (a_value a)) v) r then Err ERdn else Ok tt
  end.
(** 178-189: _canRemoveAll *)
Definition can_remove_all (k : pyval) (c : cent) : res unit :=
  do _ <- check c;
  match y_dn c with
  | [] => Err EIndex
  | r :: _ => if existsb (fun a => pyval_eqb (PStr (a_type a)) k) r then Err ERdn else Ok tt
  end.

(** The methods of an attribute set. discard stands for those it inherits from set. *)
Inductive meth := SAdd (v : pyval) | SUpdate (s : vseq) | SRemove (v : pyval) | SClear | SDiscard (v : pyval).

(** 94-117: JournaledLDAPAttributeSet: add, update, remove, clear on the set with this key and these
    values, which belongs to [c]: the entry with its journal, the values afterwards, the outcome. *)
Definition set_method (m : meth) (key : pyval) (vals : list pyval) (c : cent) : cent * list pyval * res unit :=
  match m with
  | SAdd v =>
      let c := journal (new_delta MAdd key [v]) c in
      match aset_add v vals with Ok l => (c, l, Ok tt) | Err x => (c, vals, Err x) end
  | SUpdate s => (journal (new_delta MAdd key (read1 s)) c, set_update vals (read2 s), Ok tt)
  | SRemove v =>
      if negb (mem v vals) then (c, vals, Err ELookup)
      else
        match can_remove key v c with
        | Err x => (c, vals, Err x)
        | Ok _ =>
            let c := journal (new_delta MDelete key [v]) c in
            match aset_remove v vals with Ok l => (c, l, Ok tt) | Err x => (c, vals, Err x) end
        end
  | SClear =>
      match can_remove_all key c with
      | Err x => (c, vals, Err x)
      | Ok _ => (journal (new_delta MDelete key []) c, [], Ok tt)
      end
  | SDiscard v => (c, set_del v vals, Ok tt)
  end.

(** What the user does to the attributes: e[k].method(...), e[k] = s, del e[k] *)
Inductive cedit := COn (k : pyval) (m : meth) | CSet (k : pyval) (s : vseq) | CDel (k : pyval).

(** What a method returns *)
Inductive cval :=
| XNone | XSet (a : aset) | XGet (o : option (list pyval)) | XBool (b : bool)
| XKeys (l : list pyval) | XItems (l : list (pyval * list pyval)) | XNum (n : nat).

Section Syntax.
  Variable lower : str -> str.                   (** str.lower() *)
  Variable io : Z -> Z -> res Z.                 (** int(two characters, 16), see DnModel *)
  Variable oc_first : bool.                      (** iteration order of a set of keys, see LdifModel *)

  (** 139-161: __init__(client, dn, attributes) *)
  Definition new_cent (d : dn) (items : list (pyval * list pyval)) : cent :=
    mkCent (new_entry lower d items) (new_entry lower d items) [] false.

  (** 216-218 __getitem__, then the method on the set found *)
  Definition on_set (k : pyval) (m : meth) (c : cent) : cent * res unit :=
    match (do _ <- check c; getitem lower k (y_entry c)) with
    | Err x => (c, Err x)
    | Ok a =>
        match set_method m (s_key a) (s_vals a) c with
        | (c', l, r) => (with_entry (set_vals lower a l (y_entry c')) c', r)
        end
    end.
  (** 301-307 __setitem__: entry.py 258-260 copies the new set *)
  Definition c_setitem (k : pyval) (s : vseq) (c : cent) : cent * res unit :=
    match (do _ <- check c; can_remove_all k c) with
    | Err x => (c, Err x)
    | Ok _ => (journal (new_delta MReplace k (read2 s)) (with_entry (setitem lower k (read1 s) (y_entry c)) c), Ok tt)
    end.
  (** 309-314 __delitem__ *)
  Definition c_delitem (k : pyval) (c : cent) : cent * res unit :=
    match (do _ <- check c; do _ <- can_remove_all k c; delitem lower k (y_entry c)) with
    | Err x => (c, Err x)
    | Ok e => (journal (new_delta MDelete k []) (with_entry e c), Ok tt)
    end.
  Definition c_edit (x : cedit) (c : cent) : cent * res unit :=
    match x with
    | COn k m => on_set k m c
    | CSet k s => c_setitem k s c
    | CDel k => c_delitem k c
    end.

  (** 319-320: the loop of undo *)
  Definition rebuild (l : list (pyval * list pyval)) (attrs : list aset) : list aset :=
    fold_left (fun acc kv => dict_set lower (fst kv) (set_of (snd kv)) acc) l attrs.
  (** 316-321: undo. The attributes are cleared before the items are computed. *)
  Definition c_undo (c : cent) : cent * res unit :=
    match check c with
    | Err x => (c, Err x)
    | Ok _ =>
        match items lower oc_first (y_remote c) with
        | Err x => (with_entry (mkEntry (y_dn c) []) c, Err x)
        | Ok l => (mkCent (mkEntry (y_dn c) (rebuild l [])) (y_remote c) [] (y_deleted c), Ok tt)
        end
    end.

  (** 323-324: _assertMatchedDN *)
  Definition assert_matched (d : pv) : res unit := match d with VBytes [] => Ok tt | _ => Err EAssert end.
  (** if msg.resultCode != Success.resultCode: raise ldaperrors.get(...) *)
  Definition code_check (code : pv) : res unit :=
    match code with VInt 0 => Ok tt | VInt z => Err (ELdap z) | _ => Err (ELdap (-1)) end.
  Definition cls_dec (a b : cls) : {a = b} + {a <> b}. Proof. decide equality. Defined.
  (** The common part of _commit_success (327-332), _cbMoveDone (351-356), _cbAddDone (398-405): the
      answer must be of class [k] *)
  Definition good_result (k : cls) (msg : obj) : res unit :=
    match msg with
    | OResult k' _ code d _ _ =>
        if cls_dec k k' then do _ <- code_check code; assert_matched d else Err EAssert
    | _ => Err EAssert
    end.

  (** 326-336: _commit_success *)
  Definition commit_success (msg : obj) (c : cent) : cent * res unit :=
    match (do _ <- good_result KModResp msg; do _ <- check c; items lower oc_first (y_entry c)) with
    | Err x => (c, Err x)
    | Ok l => (mkCent (y_entry c) (new_entry lower (y_dn c) l) [] (y_deleted c), Ok tt)
    end.
  (** 338-348: commit. [net]: whether client.send raises. *)
  Definition c_commit (net : option exn) (c : cent) : list obj * res cval :=
    match check c with
    | Err x => ([], Err x)
    | Ok _ =>
        match y_journal c with
        | [] => ([], Ok XNone)
        | js => match as_ldap (y_dn c) js with
                | Err x => ([], Err x)
                | Ok o => match net with None => ([o], Ok XNone) | Some x => ([], Err x) end
                end
        end
    end.

  Definition send (net : option exn) (o : obj) : list obj * res cval :=
    match net with None => ([o], Ok XNone) | Some x => ([], Err x) end.
  (** The text of a DN is encoded when the request is; the model does it when it is made. *)
  Definition text_pv (s : str) : res pv := do b <- utf8_encode s; Ok (VBytes b).

  (** 360-375: move *)
  Definition c_move (nd : dn) (net : option exn) (c : cent) : list obj * res cval :=
    match (do _ <- check c;
           match nd with
           | [] => Err EIndex
           | r :: sup =>
               do d <- text_pv (dn_text (y_dn c)); do n <- text_pv (rdn_text r); do s <- text_pv (dn_text sup);
               Ok (OModDNReq (class_tag KModDNReq) d n (VInt 1) s)
           end) with
    | Err x => ([], Err x)
    | Ok o => send net o
    end.
  (** 350-358: _cbMoveDone *)
  Definition move_done (nd : dn) (msg : obj) (c : cent) : cent * res unit :=
    match good_result KModDNResp msg with
    | Err x => (c, Err x)
    | Ok _ => (with_entry (mkEntry nd (e_attrs (y_entry c))) c, Ok tt)
    end.

  (** 377-386: _cbDeleteDone: [self] or an exception; raising what is not an exception (the result
      Success of another kind of response) is a TypeError *)
  Definition delete_done (msg : obj) : res unit :=
    match msg with
    | OResult KDelResp _ code d _ _ => do _ <- code_check code; assert_matched d
    | OResult _ _ code _ _ _ => do _ <- code_check code; Err EType
    | OExtResp _ code _ _ _ _ => do _ <- code_check code; Err EType
    | _ => Err EAssert
    end.
  (** 388-395: delete *)
  Definition c_delete (net : option exn) (c : cent) : cent * list obj * res cval :=
    match (do _ <- check c; utf8_encode (dn_text (y_dn c))) with
    | Err x => (c, [], Err x)
    | Ok b =>
        match net with
        | Some x => (c, [], Err x)
        | None => (mkCent (y_entry c) (y_remote c) (y_journal c) true, [OStr KDelReq (class_tag KDelReq) b], Ok XNone)
        end
    end.

  (** 412-416: attributes["objectClass"] comes first, the others are sorted *)
  Definition is_oc_text (k : pyval) : bool := pyval_eqb k (PStr (S_ "objectClass")).
  Definition child_attrs (attrs : list (pyval * list pyval)) : res (list (pyval * list pyval)) :=
    let oc := List.filter (fun kv => is_oc_text (fst kv) && negb (match snd kv with [] => true | _ => false end)) attrs in
    let rest := List.filter (fun kv => negb (is_oc_text (fst kv) && negb (match snd kv with [] => true | _ => false end))) attrs in
    if all_str (map fst rest) || all_bytes (map fst rest)
    then Ok (oc ++ sort_by (fun x y => pyval_leb (fst x) (fst y)) rest) else Err EType.
  (** 422-430: one attribute *)
  Definition child_attr (kv : pyval * list pyval) : res obj :=
    do k <- to_bytes (fst kv); do vs <- mapR to_bytes (snd kv);
    Ok (OSeq KSeq (class_tag KSeq) [OStr KOctet (class_tag KOctet) k;
          OSeq KSet (class_tag KSet) (map (OStr KOctet (class_tag KOctet)) vs)]).
  (** 409-434: addChild *)
  Definition c_add_child (r : rdn) (attrs : list (pyval * list pyval)) (net : option exn) (c : cent) : list obj * res cval :=
    match (do _ <- check c; do l <- child_attrs attrs; do os <- mapR child_attr l; do d <- text_pv (dn_text (r :: y_dn c));
           Ok (OAddReq (class_tag KAddReq) d (OSeq KSeq (class_tag KSeq) os))) with
    | Err x => ([], Err x)
    | Ok o => send net o
    end.
  (** 397-407: _cbAddDone: a new entry without attributes *)
  Definition add_done (r : rdn) (msg : obj) (c : cent) : res cent :=
    do _ <- good_result KAddResp msg; Ok (new_cent (r :: y_dn c) []).

  (** 445-464: setPassword_ExtendedOperation; pureldap.py 1571-1606 *)
  Definition c_set_password (new : bytes) (net : option exn) (c : cent) : list obj * res cval :=
    match (do _ <- check c; do d <- utf8_encode (dn_text (y_dn c));
           do w <- toWire (OSeq KSeq (class_tag KSeq) [OStr KPwUser (class_tag KPwUser) d; OStr KPwNew (class_tag KPwNew) new]);
           Ok (OExtReq (class_tag KExtReq) (VBytes pw_oid) (VBytes w))) with
    | Err x => ([], Err x)
    | Ok o => send net o
    end.

  (** 436-443: _cbSetPassword_ExtendedOperation *)
  Definition set_password_done (msg : obj) : res unit :=
    match msg with OExtResp _ code d _ _ _ => do _ <- code_check code; assert_matched d | _ => Err EAssert end.

  (** 469-500: setPassword_Samba with the two hashes already computed; [old]: style sambaAccount *)
  Definition c_samba (old : bool) (nt lm : pyval) (net : option exn) (c : cent) : cent * list obj * res cval :=
    let k1 := PStr (S_ (if old then "ntPassword" else "sambaNTPassword")) in
    let k2 := PStr (S_ (if old then "lmPassword" else "sambaLMPassword")) in
    match check c with
    | Err x => (c, [], Err x)
    | Ok _ =>
        match c_setitem k1 (Listed [nt]) c with
        | (c1, Err x) => (c1, [], Err x)
        | (c1, Ok _) =>
            match c_setitem k2 (Listed [lm]) c1 with
            | (c2, Err x) => (c2, [], Err x)
            | (c2, Ok _) => match c_commit net c2 with (l, r) => (c2, l, r) end
            end
        end
    end.

  (** 676-751: search. [f]: the filter, or the exception of parsing its text; [attrs]: None stands
      for ["1.1"] *)
  Definition c_search (f : res obj) (attrs : option (list bytes)) (scope deref size time typesOnly : Z) (net : option exn) (c : cent)
    : list obj * res cval :=
    match (do _ <- check c; do o <- f; do d <- text_pv (dn_text (y_dn c));
           Ok (OSearchReq (class_tag KSearchReq) d (VInt scope) (VInt deref) (VInt size) (VInt time) (VInt typesOnly) o
                 (map VBytes (match attrs with Some l => l | None => [B "1.1"] end)))) with
    | Err x => ([], Err x)
    | Ok o => send net o
    end.
  (** pureldap.LDAPFilterMatchAll *)
  Definition match_all : obj := OStr KPresent (class_tag KPresent) (B "objectClass").
  (** 628-637: fetch. Names given as text are encoded when the request is; the model does it when it
      is made. *)
  Definition c_fetch (attrs : list pyval) (net : option exn) (c : cent) : list obj * res cval :=
    match check c with
    | Err x => ([], Err x)
    | Ok _ =>
        match y_journal c with
        | [] => match mapR to_bytes attrs with
                | Ok l => c_search (Ok match_all) (Some l) 0 0 0 0 0 net c
                | Err x => ([], Err x)
                end
        | _ => ([], Err EDirty)
        end
    end.

  (** entry.py 90-99: keys() *)
  Definition e_keys (e : entry) : res (list pyval) :=
    do l <- sort_to_bytes (keys_of e);
    Ok (List.filter (fun k => match dict_get lower k (e_attrs e) with Some _ => true | None => false end) (oc_keys oc_first)
        ++ List.filter (fun k => negb (is_oc lower k)) l).
  (** 616-617: deleting all keys *)
  Fixpoint del_keys (ks : list pyval) (e : entry) : res entry :=
    match ks with [] => Ok e | k :: r => do e' <- delitem lower k e; del_keys r e' end.
  (** 621-624: copying what was found *)
  Fixpoint copy_keys (ks : list pyval) (o e : entry) : res entry :=
    match ks with
    | [] => Ok e
    | k :: r =>
        do x <- find_key lower k o;
        copy_keys r o (match x with Some a => setitem lower k (s_vals a) e | None => e end)
    end.
  (** 608-626: _cbFetch(results, overWrite). When it raises half way, _remoteData is half changed;
      the model leaves it as it was. *)
  Definition fetch_done (results : list cent) (attrs : list pyval) (c : cent) : cent * res unit :=
    match results with
    | [o] =>
        match y_journal c with
        | [] =>
            match (match attrs with
                   | [] => do ks <- e_keys (y_remote c); do e <- del_keys ks (y_remote c);
                           do _ <- check o; do ks' <- e_keys (y_entry o); do _ <- check o; copy_keys ks' (y_entry o) e
                   | _ => do _ <- check o; copy_keys attrs (y_entry o) (y_remote c)
                   end) with
            | Err x => (c, Err x)
            | Ok e => c_undo (mkCent (y_entry c) e (y_journal c) (y_deleted c))
            end
        | _ => (c, Err EAssert)
        end
    | _ => (c, Err ENoDn)
    end.

  (** 285-289: bind; 753-756: lookup: a fetch of a fresh entry; 598-606: namingContext: a search on
      a fresh entry *)
  Definition c_bind (pw : bytes) (net : option exn) (c : cent) : list obj * res cval :=
    match text_pv (dn_text (y_dn c)) with
    | Err x => ([], Err x)
    | Ok d => send net (OBindReq (class_tag KBindReq) (VInt 3) d (ASimple (VBytes pw)))
    end.
  Definition c_lookup (d : dn) (net : option exn) (c : cent) : list obj * res cval := c_fetch [PStr (S_ "1.1")] net (new_cent d []).
  Definition c_naming_context (net : option exn) (c : cent) : list obj * res cval :=
    c_search (Ok match_all) (Some [B "namingContexts"]) 0 0 0 0 0 net (new_cent [] []).

  (** Everything a user can call on the entry *)
  Inductive call :=
  | KGetItem (k : pyval) | KGet (k : pyval) | KHas (k : pyval) | KKeys | KItems | KLen
  | KEdit (x : cedit) | KUndo | KCommit
  | KMove (nd : dn) | KDelete | KAddChild (r : rdn) (attrs : list (pyval * list pyval))
  | KSetPassword (new : bytes) | KSamba (old : bool) (nt lm : pyval)
  | KFetch (attrs : list pyval) | KSearch (f : res obj) (attrs : option (list bytes)) (scope deref size time typesOnly : Z)
  | KBind (pw : bytes) | KLookup (d : dn) | KNamingContext.

  Definition pure (c : cent) (r : res cval) : cent * list obj * res cval := (c, [], r).
  Definition unit_call (x : cent * res unit) : cent * list obj * res cval :=
    match x with (c, r) => (c, [], do _ <- r; Ok XNone) end.
  Definition sending (c : cent) (x : list obj * res cval) : cent * list obj * res cval :=
    match x with (l, r) => (c, l, r) end.
  (** 216-238, 276-277: reads check the state, then do as entry.py 66-119 *)
  Definition run_call (net : option exn) (k : call) (c : cent) : cent * list obj * res cval :=
    match k with
    | KGetItem k => pure c (do _ <- check c; do a <- getitem lower k (y_entry c); Ok (XSet a))
    | KGet k => pure c (do _ <- check c; do o <- find_key lower k (y_entry c); Ok (XGet (option_map s_vals o)))
    | KHas k => pure c (do _ <- check c; do b <- has_key lower k (y_entry c); Ok (XBool b))
    | KKeys => pure c (do _ <- check c; do l <- e_keys (y_entry c); Ok (XKeys l))
    | KItems => pure c (do _ <- check c; do l <- items lower oc_first (y_entry c); Ok (XItems l))
    | KLen => pure c (do _ <- check c; do l <- e_keys (y_entry c); Ok (XNum (length l)))
    | KEdit x => unit_call (c_edit x c)
    | KUndo => unit_call (c_undo c)
    | KCommit => sending c (c_commit net c)
    | KMove nd => sending c (c_move nd net c)
    | KDelete => c_delete net c
    | KAddChild r ats => sending c (c_add_child r ats net c)
    | KSetPassword new => sending c (c_set_password new net c)
    | KSamba old nt lm => c_samba old nt lm net c
    | KFetch ats => sending c (c_fetch ats net c)
    | KSearch f ats sc de si ti ty => sending c (c_search f ats sc de si ti ty net c)
    | KBind pw => sending c (c_bind pw net c)
    | KLookup d => sending c (c_lookup d net c)
    | KNamingContext => sending c (c_naming_context net c)
    end.

  (** *** The responses to a search *)
  (** [q_found]: results; [q_end]: the Deferred has fired, with success or failure *)
  Record sres := mkSres { q_found : list cent; q_end : option (res unit) }.
  (** attrib[key] = values *)
  Fixpoint py_dict_set (k : bytes) (vs : list bytes) (l : list (bytes * list bytes)) : list (bytes * list bytes) :=
    match l with
    | [] => [(k, vs)]
    | (k', vs') :: r => if bytes_eqb k k' then (k', vs) :: r else (k', vs') :: py_dict_set k vs r
    end.
  (** _encoder.py 8-22: to_bytes of what the decoder gives *)
  Definition pv_to_bytes (v : pv) : res bytes :=
    match v with VBytes b => Ok b | VInt z => utf8_encode (dec z) | VNone => Err EType end.
  Fixpoint attrib (ats : list (pv * list pv)) (l : list (bytes * list bytes)) : res (list (bytes * list bytes)) :=
    match ats with
    | [] => Ok l
    | (k, vs) :: r => do kb <- pv_to_bytes k; do vbs <- mapR pv_to_bytes vs; attrib r (py_dict_set kb vbs l)
    end.
  (** 639-646: _cbSearchEntry *)
  Definition search_entry (name : pv) (ats : list (pv * list pv)) : res cent :=
    do l <- attrib ats [];
    do d <- to_dn io name;
    Ok (new_cent d (map (fun kv => (PBytes (fst kv), map PBytes (snd kv))) l)).
  (** 648-674: _cbSearchMsg; Ok true: the search is over. [lax]: sizeLimitIsNonFatal *)
  Definition search_msg (lax : bool) (msg : obj) (s : sres) : sres * res bool :=
    match msg with
    | OResult KSearchDone _ code d _ _ =>
        let done := match assert_matched d with
                    | Ok _ => (mkSres (q_found s) (Some (Ok tt)), Ok true)
                    | Err x => (s, Err x)
                    end in
        match code with
        | VInt 0 => done
        | VInt 4 => if lax then done else done
        | _ => match code_check code with
               | Err x => (mkSres (q_found s) (Some (Err x)), Ok true)
               | Ok _ => done
               end
        end
    | OSearchEntry _ name ats =>
        match search_entry name ats with
        | Ok c => (mkSres (q_found s ++ [c]) (q_end s), Ok false)
        | Err x => (s, Err x)
        end
    | OSearchRef _ _ => (s, Ok false)
    | _ => (s, Err (ELdap 2))
    end.
  (** The client calls it for each response until it returns True (ldapclient.py 206-221). An
      exception leaves the client's dataReceived: the connection is lost and the search fails with
      it. *)
  Fixpoint search_run (lax : bool) (msgs : list obj) (s : sres) : sres :=
    match msgs with
    | [] => s
    | m :: r =>
        match search_msg lax m s with
        | (s', Ok false) => search_run lax r s'
        | (s', Ok true) => s'
        | (s', Err x) => mkSres (q_found s') (Some (Err x))
        end
    end.
End Syntax.
