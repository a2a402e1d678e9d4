(** Model of ldaptor/protocols/ldap/ldapsyntax.py LDAPEntryWithAutoFill and of
    ldaptor/protocols/ldap/autofill/: posixAccount.py, sambaAccount.py, sambaSamAccount.py. *)
From Verif Require Import Base Utf8Model DnModel EntryModel LdapModel DeltaModel UtilModel LdifModel ServerModel SyntaxModel.

(** autofill/__init__.py 8-14: ObjectMissingObjectClassException *)
Definition EMissingClass := EUser 74.

(** posixAccount.Autofill_posix, sambaAccount.Autofill_samba, sambaSamAccount.Autofill_samba with its
    domainSID and fixedPrimaryGroupSID *)
Inductive filler := FPosix | FSamba | FSam (sid : str) (fixed : option Z).

(** ldapsyntax.py 779-782: an entry and its autoFillers *)
Record aent := mkAent { f_cent : cent; f_fillers : list filler }.

Section Autofill.
  Variable lower : str -> str.                   (** str.lower() *)
  Variable oc_first : bool.                      (** iteration order of a set of keys, see LdifModel *)
  Variable io : str -> res Z.                    (** int() on text other than digits, see UtilModel *)
  Variable iob : bytes -> res Z.                 (** int() on bytes *)

  (** int(value) *)
  Definition num (v : pyval) : res Z := match v with PStr s => py_int io s | PBytes b => iob b end.
  (** ldapsyntax.py 228-230 (224-226): key in entry *)
  Definition a_has (k : pyval) (c : cent) : res bool := do _ <- check c; has_key lower k (y_entry c).
  (** ldapsyntax.py 216-218: entry[key], the values *)
  Definition a_get (k : pyval) (c : cent) : res (list pyval) := do _ <- check c; do a <- getitem lower k (y_entry c); Ok (s_vals a).
  (** sambaAccount.py 27-30, 37-40, sambaSamAccount.py 42-45, 52-55: the single number in an attribute *)
  Definition the_number (k : pyval) (c : cent) : res Z :=
    do b <- a_has k c;
    if b then do vs <- a_get k c; match vs with [v] => num v | _ => Err EAssert end else Err EAssert.

  (** notify(ldapObject, attributeType): which attribute it assigns, and the value. posixAccount.py
      46-47, sambaAccount.py 23-43, sambaSamAccount.py 39-58. Text and bytes are never equal. *)
  Definition wanted (f : filler) (key : pyval) (c : cent) : res (option (str * str)) :=
    let uid := PStr (S_ "uidNumber") in
    let gid := PStr (S_ "gidNumber") in
    match f with
    | FPosix => Ok None
    | FSamba =>
        if pyval_eqb key uid then do n <- the_number uid c; Ok (Some (S_ "rid", dec (n * 2 + 1000)))
        else if pyval_eqb key gid then do n <- the_number gid c; Ok (Some (S_ "primaryGroupID", dec (n * 2 + 1001)))
        else Ok None
    | FSam sid fixed =>
        if pyval_eqb key uid then do n <- the_number uid c; Ok (Some (S_ "sambaSID", sid ++ 45 :: dec (n * 2 + 1000)))
        else match fixed with
             | Some _ => Ok None
             | None =>
                 if pyval_eqb key gid then do n <- the_number gid c; Ok (Some (S_ "sambaPrimaryGroupSID", sid ++ 45 :: dec (n * 2 + 1001)))
                 else Ok None
             end
    end.

  (** ldapsyntax.py 795-796: the loop of journal. [set] is ldapObject.__setitem__. *)
  Fixpoint notify_all (set : pyval -> vseq -> cent -> cent * res unit) (fs : list filler) (key : pyval) (c : cent) : cent * res unit :=
    match fs with
    | [] => (c, Ok tt)
    | f :: r =>
        match wanted f key c with
        | Err x => (c, Err x)
        | Ok None => notify_all set r key c
        | Ok (Some (k, v)) =>
            match set (PStr k) (Listed [PStr v]) c with
            | (c', Err x) => (c', Err x)
            | (c', Ok _) => notify_all set r key c'
            end
        end
    end.
  (** ldapsyntax.py 301-307 __setitem__ with the journal of 793-796, which may assign again. *)
  Fixpoint a_setitem (fuel : nat) (fs : list filler) (k : pyval) (s : vseq) (c : cent) : cent * res unit :=
    match fuel with
    | O => (c, Err EFuel)
    | S n =>
        match (do _ <- check c; can_remove_all k c) with
        | Err x => (c, Err x)
        | Ok _ =>
            notify_all (a_setitem n fs) fs k
              (journal (new_delta MReplace k (read2 s)) (with_entry (setitem lower k (read1 s) (y_entry c)) c))
        end
    end.
  (** Assignments made by a notification notify nobody further who assigns: two levels are enough. *)
  Definition a_set (fs : list filler) (k : pyval) (s : vseq) (c : cent) : cent * res unit := a_setitem 3 fs k s c.
  (** ldapsyntax.py 793-796: journal *)
  Definition a_journal (fs : list filler) (m : delta) (c : cent) : cent * res unit :=
    notify_all (a_setitem 2 fs) fs (d_key m) (journal m c).
  (** ldapsyntax.py 309-314 __delitem__ *)
  Definition a_delitem (fs : list filler) (k : pyval) (c : cent) : cent * res unit :=
    match (do _ <- check c; do _ <- can_remove_all k c; delitem lower k (y_entry c)) with
    | Err x => (c, Err x)
    | Ok e => a_journal fs (new_delta MDelete k []) (with_entry e c)
    end.

  (** ldapsyntax.py 94-117: the methods of the set [a], which belongs to [c]: add, update and remove
      journal before they change the values, clear journals afterwards. *)
  Definition a_method (fs : list filler) (m : meth) (a : aset) (c : cent) : cent * list pyval * res unit :=
    let key := s_key a in
    let vals := s_vals a in
    match m with
    | SAdd v =>
        match a_journal fs (new_delta MAdd key [v]) c with
        | (c, Err x) => (c, vals, Err x)
        | (c, Ok _) => match aset_add v vals with Ok l => (c, l, Ok tt) | Err x => (c, vals, Err x) end
        end
    | SUpdate s =>
        match a_journal fs (new_delta MAdd key (read1 s)) c with
        | (c, Err x) => (c, vals, Err x)
        | (c, Ok _) => (c, set_update vals (read2 s), Ok tt)
        end
    | SRemove v =>
        if negb (mem v vals) then (c, vals, Err ELookup)
        else
          match can_remove key v c with
          | Err x => (c, vals, Err x)
          | Ok _ =>
              match a_journal fs (new_delta MDelete key [v]) c with
              | (c, Err x) => (c, vals, Err x)
              | (c, Ok _) => match aset_remove v vals with Ok l => (c, l, Ok tt) | Err x => (c, vals, Err x) end
              end
          end
    | SClear =>
        match can_remove_all key c with
        | Err x => (c, vals, Err x)
        | Ok _ =>
            match a_journal fs (new_delta MDelete key []) (with_entry (set_vals lower a [] (y_entry c)) c) with
            | (c, r) => (c, [], r)
            end
        end
    | SDiscard v => (c, set_del v vals, Ok tt)
    end.
  (** ldapsyntax.py 216-218 __getitem__, then the method *)
  Definition a_on_set (fs : list filler) (k : pyval) (m : meth) (c : cent) : cent * res unit :=
    match (do _ <- check c; getitem lower k (y_entry c)) with
    | Err x => (c, Err x)
    | Ok a =>
        match a_method fs m a c with
        | (c', l, r) => (with_entry (set_vals lower a l (y_entry c')) c', r)
        end
    end.
  Definition a_edit (fs : list filler) (x : cedit) (c : cent) : cent * res unit :=
    match x with
    | COn k m => a_on_set fs k m c
    | CSet k s => a_set fs k s c
    | CDel k => a_delitem fs k c
    end.

  (** assert "x" not in ldapObject; ldapObject["x"] = [value] *)
  Definition fill (fs : list filler) (kv : str * str) (c : cent) : cent * res unit :=
    match a_has (PStr (fst kv)) c with
    | Err x => (c, Err x)
    | Ok true => (c, Err EAssert)
    | Ok false => a_set fs (PStr (fst kv)) (Listed [PStr (snd kv)]) c
    end.
  Fixpoint fill_all (fs : list filler) (l : list (str * str)) (c : cent) : cent * res unit :=
    match l with
    | [] => (c, Ok tt)
    | kv :: r => match fill fs kv c with (c', Err x) => (c', Err x) | (c', Ok _) => fill_all fs r c' end
    end.
  (** assert "objectClass" in ldapObject; if cls not in ldapObject["objectClass"]: raise *)
  Definition has_class (cls : str) (c : cent) : res unit :=
    do b <- a_has (PStr (S_ "objectClass")) c;
    if b then do vs <- a_get (PStr (S_ "objectClass")) c; if mem (PStr cls) vs then Ok tt else Err EMissingClass else Err EAssert.

  (** sambaAccount.py 10-21 *)
  Definition samba_defaults : list (str * str) :=
    [(S_ "acctFlags", S_ "[UX         ]"); (S_ "pwdLastSet", S_ "0"); (S_ "logonTime", S_ "0"); (S_ "logoffTime", S_ "0");
     (S_ "pwdCanChange", S_ "0"); (S_ "pwdMustChange", S_ "0")].
  (** sambaSamAccount.py 14-31 *)
  Definition sam_defaults (sid : str) (fixed : option Z) : list (str * str) :=
    [(S_ "sambaAcctFlags", S_ "[UX         ]"); (S_ "sambaPwdLastSet", S_ "1"); (S_ "sambaLogonTime", S_ "0"); (S_ "sambaLogoffTime", S_ "0");
     (S_ "sambaPwdCanChange", S_ "0"); (S_ "sambaPwdMustChange", S_ "0")]
    ++ match fixed with Some g => [(S_ "sambaPrimaryGroupSID", sid ++ 45 :: dec g)] | None => [] end.
  (** sambaSamAccount.py 36-37: the loop over the keys the entry has *)
  Fixpoint notify_keys (fs : list filler) (f : filler) (ks : list pyval) (c : cent) : cent * res unit :=
    match ks with
    | [] => (c, Ok tt)
    | k :: r =>
        match notify_all (a_set fs) [f] k c with
        | (c', Err x) => (c', Err x)
        | (c', Ok _) => notify_keys fs f r c'
        end
    end.
  (** autoFiller.start(ldapObject), as far as it goes at once: posixAccount.py 24-44, sambaAccount.py
      5-21, sambaSamAccount.py 9-37. [fs]: the autofillers there are already. *)
  Definition start (fs : list filler) (f : filler) (c : cent) : cent * res unit :=
    match f with
    | FPosix =>
        match has_class (S_ "posixAccount") c with
        | Err x => (c, Err x)
        | Ok _ => fill_all fs [(S_ "loginShell", S_ "/bin/sh")] c
        end
    | FSamba =>
        match has_class (S_ "sambaAccount") c with
        | Err x => (c, Err x)
        | Ok _ => fill_all fs samba_defaults c
        end
    | FSam sid fixed =>
        match has_class (S_ "sambaSamAccount") c with
        | Err x => (c, Err x)
        | Ok _ =>
            match fill_all fs (sam_defaults sid fixed) c with
            | (c, Err x) => (c, Err x)
            | (c, Ok _) =>
                match (do _ <- check c; e_keys lower oc_first (y_entry c)) with
                | Err x => (c, Err x)
                | Ok ks => notify_keys fs f ks c
                end
            end
        end
    end.
  (** posixAccount.py 11-22: _cb_gotNumbers. With fireOnOneErrback a failed search gives no call of
      it, but an error. *)
  Definition got_numbers (fs : list filler) (r : res (Z * Z)) (c : cent) : cent * res unit :=
    match r with
    | Err x => (c, Err x)
    | Ok (u, g) =>
        match a_set fs (PStr (S_ "uidNumber")) (Listed [PStr (dec u)]) c with
        | (c', Err x) => (c', Err x)
        | (c', Ok _) => a_set fs (PStr (S_ "gidNumber")) (Listed [PStr (dec g)]) c'
        end
    end.

  (** What happens to the entry: edits; addAutofiller (784-791) for a filler that starts at once; the
      two parts of addAutofiller for the posix one: the start, and the answers to its searches. *)
  Inductive aevent := AEdit (x : cedit) | AAdd (f : filler) | ANumbers (r : res (Z * Z)).
  Definition with_filler (f : filler) (fs : list filler) (p : cent * res unit) : aent * res unit :=
    match p with
    | (c, Err x) => (mkAent c fs, Err x)
    | (c, Ok _) => (mkAent c (fs ++ [f]), Ok tt)
    end.
  Definition a_step (e : aevent) (a : aent) : aent * res unit :=
    let fs := f_fillers a in
    match e with
    | AEdit x => let (c, r) := a_edit fs x (f_cent a) in (mkAent c fs, r)
    | AAdd FPosix => let (c, r) := start fs FPosix (f_cent a) in (mkAent c fs, r)
    | AAdd f => with_filler f fs (start fs f (f_cent a))
    | ANumbers r => with_filler FPosix fs (got_numbers fs r (f_cent a))
    end.
  Definition a_run (l : list aevent) (a : aent) : aent := fold_left (fun a e => fst (a_step e a)) l a.
End Autofill.
