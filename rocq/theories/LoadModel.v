(** Model of the loading of LDIF in ldaptor/inmemory.py: InMemoryLDIFProtocol and fromLDIFFile. *)
From Verif Require Import Base Utf8Model DnModel EntryModel LdifModel InmemModel ServerModel.

(** What fromLDIFFile gives: an exception, or the Deferred [completed], which has a directory, has
    failed, or never fires. *)
Inductive loaded := LRaised (e : exn) | LDone (h : heap) | LFailed (e : exn) | LNever.

Section Load.
  Variable lower : str -> str.     (** str.lower() *)
  Variable io : Z -> Z -> res Z.   (** int(two characters, 16), see DnModel *)
  Variable vio : str -> res Z.     (** int(bytes) outside plain decimals, see UtilModel *)
  Variable oc : bool.              (** iteration order of _object_class_keys, see LdifModel *)
  Variable depth : nat.            (** Python's recursion limit, see InmemModel *)

  (** inmemory.py 147-163: _addEntry(db, entry); lookupFailed and addFailed (172-176) pass the error
      on. The arguments of addChild are evaluated before it: split()[0], and the items (entry.py 102-119,
      see ServerModel) in the entry's constructor, after the check for a child of that name. *)
  Definition load_add (h : heap) (e : entry) : res heap :=
    do p <- lookup lower depth h 0%nat (dn_up (e_dn e));
    match e_dn e with
    | [] => Err EIndex
    | rd :: _ =>
        do n <- deref h p;
        match key_get (rdn_text rd) (n_children n) with
        | Some _ => Err EAlreadyExists
        | None => do a <- items lower oc e; do (h', c) <- add_child lower h p rd a; Ok h'
        end
    end.
  (** The callbacks of _deferred, one for each entry after the first (165-171); after a failure the
      others are not called *)
  Fixpoint load_rest (h : heap) (es : list entry) : loaded :=
    match es with
    | [] => LDone h
    | e :: r => match load_add h e with Ok h' => load_rest h' r | Err x => LFailed x end
    end.
  (** 165-171: gotEntry(entry). The first entry is made at once, in the parser: an exception there
      would leave dataReceived. Without an entry, _deferred is never fired. *)
  Definition load (es : list entry) : loaded :=
    match es with
    | [] => LNever
    | e :: r =>
        match items lower oc e with
        | Ok a => load_rest [mkNode (new_entry lower (e_dn e) a) None []] r
        | Err x => LRaised x
        end
    end.
  (** The records of the class LDIF are entries *)
  Definition entries (rs : list record) : list entry :=
    concat (map (fun r => match r with REntry e => [e] | _ => [] end) rs).
  (** 178-200: connectionLost with ConnectionDone, fromLDIFFile(f), f being a file with [text].
      Exceptions of the parser leave fromLDIFFile. *)
  Definition fromLDIFFile (text : bytes) : loaded :=
    let (rs, r) := parse lower io vio false (match text with [] => [] | _ => [text] end) in
    match r with
    | Err x => LRaised x
    | Ok _ => load (entries rs)
    end.

  (** The LDIF of a directory: ldif.header() and toWire() of each entry of subtree()
      (entryhelpers.py 130-146 with result.append). No single function of the library does this;
      _scripts/ldifpatch.py 17-23 means to, with str(node). *)
  Definition dump (h : heap) : res bytes :=
    match subtree (fun c s => (s ++ [c], None)) depth h 0%nat [] with
    | (_, Some x) => Err x
    | (l, None) =>
        do es <- mapR (fun c => do n <- deref h c; Ok (n_entry n)) l;
        do ws <- mapR (entry_toWire lower oc) es;
        Ok (ldif_header ++ concat ws)
    end.
End Load.
