(** Model of how BER objects and filters are compared and hashed: ldaptor/protocols/pureber.py
    117-132 (BERBase.__len__, __eq__, __ne__, __hash__) and ldaptor/protocols/pureldap.py 506-515
    (LDAPFilterSet.__eq__). The objects are those of filters (LdapSpec.filter_obj): for them the class
    of the right operand is never a subclass of the class of the left one, so Python asks the left
    operand first. Object identity is not modelled: [self is rhs] (508) and the identity test that
    list comparison makes before == only shorten comparisons of an object with itself. *)
From Verif Require Import Base Utf8Model DnModel EntryModel LdapModel LdapSpec.

(** isinstance(o, LDAPFilterSet): LDAPFilter_and and LDAPFilter_or (pureldap.py 518, 525) *)
Definition filter_set (o : obj) : bool :=
  match o with OSeq KAnd _ _ | OSeq KOr _ _ => true | _ => false end.

(** sorted(l, key=lambda x: x.toWire()) (pureldap.py 513-515) *)
Definition sort_wire (l : list obj) : res (list obj) :=
  do ks <- mapR (fun o => do w <- toWire o; Ok (w, o)) l;
  Ok (map snd (sort_by (fun x y => bytes_leb (fst x) (fst y)) ks)).

(** l == m for two Python lists: first the lengths, then == on each pair until one differs. *)
Fixpoint pairs_eq (eq : obj -> obj -> res bool) (l m : list obj) : res bool :=
  match l, m with
  | x :: l', y :: m' => do b <- eq x y; if b then pairs_eq eq l' m' else Ok false
  | _, _ => Ok true
  end.
Definition lists_eq (eq : obj -> obj -> res bool) (l m : list obj) : res bool :=
  if zlen l =? zlen m then pairs_eq eq l m else Ok false.

(** a == b: for LDAPFilterSet pureldap.py 506-515, where len() of a BER object is the number of its
    octets (pureber.py 117-118, before UserList in the method resolution order) and sorted(rhs)
    iterates rhs; otherwise pureber.py 120-123. [n] bounds the nesting. *)
Fixpoint obj_eq (n : nat) (a b : obj) : res bool :=
  match n with
  | O => Err EFuel
  | S n' =>
      if filter_set a then
        do wa <- toWire a;
        do wb <- toWire b;
        if negb (zlen wa =? zlen wb) then Ok false
        else
          do ia <- iter_of a;
          do sa <- sort_wire ia;
          do ib <- iter_of b;
          do sb <- sort_wire ib;
          lists_eq (obj_eq n') sa sb
      else
        do wa <- toWire a;
        do wb <- toWire b;
        Ok (bytes_eqb wa wb)
  end.
(** How deep and/or filters are nested in [o] as [obj_eq] follows them: always enough for [n]. *)
Fixpoint set_depth (o : obj) : nat :=
  match o with
  | OSeq _ _ l => S (fold_right Nat.max O (map set_depth l))
  | _ => O
  end.
Definition py_eq (a b : obj) : res bool := obj_eq (S (set_depth a)) a b.

(** a != b: pureber.py 125-129, also for LDAPFilterSet, which defines no __ne__ *)
Definition py_ne (a b : obj) : res bool :=
  do wa <- toWire a;
  do wb <- toWire b;
  Ok (negb (bytes_eqb wa wb)).

(** hash(o): pureber.py 131-132. LDAPFilterSet defines __eq__ and no __hash__, which in Python sets
    __hash__ to None: hash() raises TypeError. [hash]: hash() of bytes. *)
Definition py_hash (hash : bytes -> Z) (o : obj) : res Z :=
  if filter_set o then Err EType else do w <- toWire o; Ok (hash w).
