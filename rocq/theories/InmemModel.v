(** Model of ldaptor/inmemory.py, ReadOnlyInMemoryLDAPEntry, and of the walking part of
    ldaptor/entryhelpers.py (subtree, search). Entries are objects with identity: a reference is
    an index in the heap. Deferreds are always already fired here, so a call is a result; an
    exception inside a Deferred's callback stays in that Deferred. *)
From Verif Require Import Base Utf8Model DnModel EntryModel LdapSpec MatchModel.

Definition ref := nat.
(** inmemory.py 24-27: an entry, _parent, and _children (a dict in order of insertion) *)
Record node := mkNode { n_entry : entry; n_parent : option ref; n_children : list (str * ref) }.
Definition heap := list node.
Definition n_dn (n : node) : dn := e_dn (n_entry n).

Fixpoint set_nth {A} (n : nat) (x : A) (l : list A) : list A :=
  match l, n with
  | [], _ => []
  | _ :: r, O => x :: r
  | y :: r, S n' => y :: set_nth n' x r
  end.
Definition set_children (n : node) (cs : list (str * ref)) : node := mkNode (n_entry n) (n_parent n) cs.
Definition set_entry (n : node) (e : entry) : node := mkNode e (n_parent n) (n_children n).

(** dict.__contains__ / get, dict.pop, dict.__setitem__ *)
Definition key_get (k : str) (cs : list (str * ref)) : option ref :=
  match find (fun x => str_eqb (fst x) k) cs with Some (_, c) => Some c | None => None end.
Definition key_del (k : str) (cs : list (str * ref)) : list (str * ref) :=
  List.filter (fun x => negb (str_eqb (fst x) k)) cs.
Fixpoint key_set (k : str) (c : ref) (cs : list (str * ref)) : list (str * ref) :=
  match cs with
  | [] => [(k, c)]
  | x :: r => if str_eqb (fst x) k then (fst x, c) :: r else x :: key_set k c r
  end.

(** ldaperrors: LDAPNoSuchObject, LDAPEntryAlreadyExists, LDAPNamingViolation, LDAPNotAllowedOnNonLeaf *)
Definition ENoSuchObject : exn := ELdap 32.
Definition EAlreadyExists : exn := ELdap 68.
Definition ENamingViolation : exn := ELdap 64.
Definition ENonLeaf : exn := ELdap 66.

(** A reference that is not in the heap cannot occur in Python; the model says AttributeError. *)
Definition deref (h : heap) (r : ref) : res node :=
  match nth_error h r with Some n => Ok n | None => Err EAttr end.

Section Inmem.
  Variable lower : str -> str.

  (** inmemory.py 40-50: _lookup(dn). [depth] stands for Python's recursion limit, counted in
      levels of the tree. *)
  Fixpoint lookup (depth : nat) (h : heap) (r : ref) (d : dn) : res ref :=
    match depth with
    | O => Err ERecursion
    | S depth' =>
        do n <- deref h r;
        if negb (contains lower (n_dn n) d) then Err ENoSuchObject
        else if dn_eqb lower d (n_dn n) then Ok r
        else
          (fix try cs :=
             match cs with
             | [] => Err ENoSuchObject
             | (_, c) :: rest =>
                 do m <- deref h c;
                 if contains lower (n_dn m) d then lookup depth' h c d else try rest
             end) (n_children n)
    end.

  (** inmemory.py 60-73: addChild(rdn, attributes), rdn a RelativeDistinguishedName, attributes a
      dict given by its items *)
  Definition add_child (h : heap) (p : ref) (rd : rdn) (attrs : list (pyval * list pyval)) : res (heap * ref) :=
    do n <- deref h p;
    match key_get (rdn_text rd) (n_children n) with
    | Some _ => Err EAlreadyExists
    | None =>
        let c := length h in
        let e := new_entry lower (rd :: n_dn n) attrs in
        Ok (set_nth p (set_children n (key_set (rdn_text rd) c (n_children n))) h ++ [mkNode e (Some p) []], c)
    end.

  (** inmemory.py 85-92: _deleteChild(rdn) *)
  Definition delete_child (h : heap) (p : ref) (rd : rdn) : res (heap * ref) :=
    do n <- deref h p;
    match key_get (rdn_text rd) (n_children n) with
    | Some c => Ok (set_nth p (set_children n (key_del (rdn_text rd) (n_children n))) h, c)
    | None => Err ENoSuchObject
    end.

  (** inmemory.py 75-80: _delete() *)
  Definition delete (h : heap) (r : ref) : res (heap * ref) :=
    do n <- deref h r;
    match n_parent n with
    | None => Err ENamingViolation
    | Some p =>
        match n_children n with
        | _ :: _ => Err ENonLeaf
        | [] => match n_dn n with
                | rd :: _ => delete_child h p rd
                | [] => Err EIndex
                end
        end
    end.

  (** inmemory.py 103-105: climbing to the root; [fuel] bounds the loop, which runs forever on a
      cycle *)
  Fixpoint root_of (fuel : nat) (h : heap) (r : ref) : res ref :=
    match fuel with
    | O => Err EFuel
    | S f => do n <- deref h r; match n_parent n with None => Ok r | Some p => root_of f h p end
    end.

  (** Changing the entry of [r] with a function that may fail. *)
  Definition upd_entry (h : heap) (r : ref) (f : entry -> res entry) : res heap :=
    do n <- deref h r; do e <- f (n_entry n); Ok (set_nth r (set_entry n e) h).
  (** 118-119: self[attr.attributeType].remove(attr.value) *)
  Definition remove_av (a : atv) (e : entry) : res entry :=
    do s <- getitem lower (PStr (a_type a)) e;
    do l <- aset_remove (PStr (a_value a)) (s_vals s); Ok (set_vals lower s l e).
  (** 121-123: self[attr.attributeType].add(attr.value) *)
  Definition add_av (a : atv) (e : entry) : res entry :=
    do s <- getitem lower (PStr (a_type a)) e;
    do l <- aset_add (PStr (a_value a)) (s_vals s); Ok (set_vals lower s l e).
  (** A loop of such changes; what was done before an exception stays. *)
  Fixpoint each_av (f : atv -> entry -> res entry) (h : heap) (r : ref) (avs : list atv) : heap * res unit :=
    match avs with
    | [] => (h, Ok tt)
    | a :: rest => match upd_entry h r (f a) with Ok h' => each_av f h' r rest | Err x => (h, Err x) end
    end.

  (** inmemory.py 114-116: entering the new parent's dict and leaving the old one's *)
  Definition relink (h : heap) (r np : ref) (newDN : dn) : heap * res unit :=
    match newDN with
    | [] => (h, Err EIndex)
    | nrd :: _ =>
        match deref h np with
        | Err x => (h, Err x)
        | Ok m =>
            let h1 := set_nth np (set_children m (key_set (rdn_text nrd) r (n_children m))) h in
            (h1,
             do n <- deref h1 r;
             match n_parent n, n_dn n with
             | None, _ => Err EAttr
             | Some _, [] => Err EIndex
             | Some p, ord :: _ =>
                 do q <- deref h1 p;
                 match key_get (rdn_text ord) (n_children q) with None => Err EKey | Some _ => Ok tt end
             end)
        end
    end.
  Definition unlink (h : heap) (r : ref) : heap :=
    match nth_error h r with
    | Some n =>
        match n_parent n, n_dn n with
        | Some p, ord :: _ =>
            match nth_error h p with
            | Some q => set_nth p (set_children q (key_del (rdn_text ord) (n_children q))) h
            | None => h
            end
        | _, _ => h
        end
    | None => h
    end.

  (** inmemory.py 117-126: the rest of _move2 *)
  Definition rename (h : heap) (r : ref) (newDN : dn) : heap * res unit :=
    match nth_error h r with
    | None => (h, Err EAttr)
    | Some n =>
        match n_dn n with
        | [] => (h, Err EIndex)
        | ord :: _ =>
            match each_av remove_av h r ord with
            | (h1, Err x) => (h1, Err x)
            | (h1, Ok _) =>
                match newDN with
                | [] => (h1, Err EIndex)
                | nrd :: _ =>
                    match each_av add_av h1 r nrd with
                    | (h2, Err x) => (h2, Err x)
                    | (h2, Ok _) =>
                        match upd_entry h2 r (fun e => Ok (mkEntry newDN (e_attrs e))) with
                        | Ok h3 => (h3, Ok tt)
                        | Err x => (h2, Err x)
                        end
                    end
                end
            end
        end
    end.

  (** inmemory.py 97-126: move(newDN), newDN a DistinguishedName. The heap is changed also when
      an exception is raised. *)
  Definition move (depth : nat) (h : heap) (r : ref) (newDN : dn) : heap * res unit :=
    match deref h r with
    | Err x => (h, Err x)
    | Ok n =>
        if negb (dn_eqb lower (dn_up newDN) (dn_up (n_dn n))) then
          match (do root <- root_of depth h r; lookup depth h root (dn_up newDN)) with
          | Err x => (h, Err x)
          | Ok np =>
              match relink h r np newDN with
              | (h1, Err x) => (h1, Err x)
              | (h1, Ok _) => rename (unlink h1 r) r newDN
              end
          end
        else rename h r newDN
    end.

  (** ** Walking *)
  Section Walk.
    (** A callback with a state; it may raise, keeping what it did. *)
    Variable St : Type.
    Variable cb : ref -> St -> St * option exn.

    (** entryhelpers.py 127-146: subtree(callback). The second component is what the call itself
        raises. What a child's call raises ends the loop of _gotChildren and stays in the Deferred
        that the caller ignores. *)
    Fixpoint subtree (depth : nat) (h : heap) (r : ref) (s : St) : St * option exn :=
      match depth with
      | O => (s, Some ERecursion)
      | S depth' =>
          match cb r s with
          | (s', Some x) => (s', Some x)
          | (s', None) =>
              match nth_error h r with
              | None => (s', Some EAttr)
              | Some n =>
                  ((fix pop cs s :=
                      match cs with
                      | [] => s
                      | (_, c) :: rest =>
                          match subtree depth' h c s with
                          | (s1, None) => pop rest s1
                          | (s1, Some _) => s1
                          end
                      end) (rev (n_children n)) s', None)
              end
          end
      end.

    (** inmemory.py 32-38: children(callback) *)
    Fixpoint each_child (cs : list (str * ref)) (s : St) : St * option exn :=
      match cs with
      | [] => (s, None)
      | (_, c) :: rest =>
          match cb c s with
          | (s1, None) => each_child rest s1
          | (s1, Some x) => (s1, Some x)
          end
      end.
  End Walk.
  Arguments subtree {St}. Arguments each_child {St}.

  (** entryhelpers.py 295-298: _tryMatch, collecting the results *)
  Definition try_match (h : heap) (f : filter) (r : ref) (s : list ref) : list ref * option exn :=
    match (do n <- deref h r; matches lower (n_entry n) f) with
    | Ok true => (s ++ [r], None)
    | Ok false => (s, None)
    | Err x => (s, Some x)
    end.

  Inductive scope := ScBase | ScOne | ScSub.
  (** entryhelpers.py 248-305: search(filterObject, scope) without a callback; the Deferred that
      the iterator returns (300) is dropped *)
  Definition search (depth : nat) (h : heap) (r : ref) (f : filter) (sc : scope) : res (list ref) :=
    match (match sc with
           | ScBase => try_match h f r []
           | ScOne => match nth_error h r with
                      | Some n => each_child (try_match h f) (n_children n) []
                      | None => ([], Some EAttr)
                      end
           | ScSub => subtree (try_match h f) depth h r []
           end) with
    | (l, None) => Ok l
    | (_, Some x) => Err x
    end.
End Inmem.
Arguments subtree {St}. Arguments each_child {St}.
