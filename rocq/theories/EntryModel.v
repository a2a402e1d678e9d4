(** Model of ldaptor/attributeset.py, ldaptor/entry.py (attributes) and ldaptor/delta.py (patching).
    A Python set is a list without repetition; its order stands for the iteration order, which
    Python leaves open. *)
From Verif Require Import Base Utf8Model DnModel.

Definition mem (v : pyval) (l : list pyval) : bool := existsb (pyval_eqb v) l.
(** set.add, set.discard of an element, set.update, set(iterable), set difference, set.__eq__ *)
Definition set_add (v : pyval) (l : list pyval) : list pyval := if mem v l then l else l ++ [v].
Definition set_del (v : pyval) (l : list pyval) : list pyval := filter (fun x => negb (pyval_eqb v x)) l.
Definition set_update (l vs : list pyval) : list pyval := fold_left (fun s v => set_add v s) vs l.
Definition set_of (vs : list pyval) : list pyval := set_update [] vs.
Definition set_diff (a b : list pyval) : list pyval := filter (fun x => negb (mem x b)) a.
Definition set_inter (a b : list pyval) : list pyval := filter (fun x => mem x b) a.
Definition set_eqb (a b : list pyval) : bool :=
  forallb (fun x => mem x b) a && forallb (fun x => mem x a) b.

(** attributeset.py 6-23: LDAPAttributeSet, its key and its values *)
Record aset := mkSet { s_key : pyval; s_vals : list pyval }.

(** attributeset.py 50-59: add *)
Definition aset_add (v : pyval) (l : list pyval) : res (list pyval) :=
  do fs <- get_strings v;
  Ok (if existsb (fun k => mem k l) fs then l else set_add v l).

(** attributeset.py 61-71: remove *)
Definition aset_remove (v : pyval) (l : list pyval) : res (list pyval) :=
  do fs <- get_strings v;
  match find (fun k => mem k l) fs with
  | Some k => Ok (set_del k l)
  | None => Err EKey
  end.

(** attributeset.py 31-39: __eq__ between attribute sets *)
Definition aset_eqb (a b : aset) : bool :=
  pyval_eqb (s_key a) (s_key b) && set_eqb (s_vals a) (s_vals b).

(** Python's list.sort(key=...) on already computed keys: stable. *)
Fixpoint insert_by {A} (leb : A -> A -> bool) (x : A) (l : list A) : list A :=
  match l with
  | [] => [x]
  | y :: r => if leb x y then x :: l else y :: insert_by leb x r
  end.
Definition sort_by {A} (leb : A -> A -> bool) (l : list A) : list A := fold_right (insert_by leb) [] l.
(** l.sort(key=to_bytes) *)
Definition sort_to_bytes (l : list pyval) : res (list pyval) :=
  do ks <- mapR (fun v => do b <- to_bytes v; Ok (b, v)) l;
  Ok (map snd (sort_by (fun x y => bytes_leb (fst x) (fst y)) ks)).

Section Entry.
  (** str.lower() *)
  Variable lower : str -> str.

  (** key.lower() for text or bytes *)
  Definition lowv (k : pyval) : pyval :=
    match k with PStr s => PStr (lower s) | PBytes b => PBytes (lower_bytes b) end.

  (** entry.py 35-61: an entry: its DN and its attributes. The latter are a
      twisted.python.util.InsensitiveDict: keys are compared by lower(), the spelling last stored
      is kept, iteration is in order of insertion. *)
  Record entry := mkEntry { e_dn : dn; e_attrs : list aset }.

  Definition same_key (k : pyval) (a : aset) : bool := pyval_eqb (lowv k) (lowv (s_key a)).
  (** InsensitiveDict: __contains__ / get, __setitem__, __delitem__ *)
  Definition dict_get (k : pyval) (l : list aset) : option aset := find (same_key k) l.
  Fixpoint dict_set (k : pyval) (vs : list pyval) (l : list aset) : list aset :=
    match l with
    | [] => [mkSet k vs]
    | a :: r => if same_key k a then mkSet k vs :: r else a :: dict_set k vs r
    end.
  Definition dict_del (k : pyval) (l : list aset) : list aset := filter (fun a => negb (same_key k a)) l.
  (** Changing in place the set stored under k. *)
  Fixpoint dict_upd (k : pyval) (f : list pyval -> list pyval) (l : list aset) : list aset :=
    match l with
    | [] => []
    | a :: r => if same_key k a then mkSet (s_key a) (f (s_vals a)) :: r else a :: dict_upd k f r
    end.

  (** entry.py 55-61: the loops of __init__ over attributes.items(). *)
  Fixpoint init_loop (items : list (pyval * list pyval)) (l : list aset) : list aset :=
    match items with
    | [] => l
    | (k, vs) :: r =>
        let l1 := match dict_get k l with Some _ => l | None => l ++ [mkSet k []] end in
        init_loop r (dict_upd k (fun old => old ++ vs) l1)
    end.
  (** entry.py 41-64: BaseLDAPEntry(dn, attributes), buildAttributeSet *)
  Definition new_entry (d : dn) (items : list (pyval * list pyval)) : entry :=
    mkEntry d (map (fun a => mkSet (s_key a) (set_of (s_vals a))) (init_loop items [])).

  (** entry.py 67-68, 73-74, 79-80: the first of get_strings(key) that is a key. *)
  Definition find_key (k : pyval) (e : entry) : res (option aset) :=
    do fs <- get_strings k;
    Ok (fold_right (fun f acc => match dict_get f (e_attrs e) with Some a => Some a | None => acc end) None fs).
  (** entry.py 66-70: __getitem__ *)
  Definition getitem (k : pyval) (e : entry) : res aset :=
    do o <- find_key k e; match o with Some a => Ok a | None => Err EKey end.
  (** entry.py 72-76: get(key, []) *)
  Definition get_values (k : pyval) (e : entry) : res (list pyval) :=
    do o <- find_key k e; Ok (match o with Some a => s_vals a | None => [] end).
  (** entry.py 78-85: has_key, __contains__ *)
  Definition has_key (k : pyval) (e : entry) : res bool :=
    do o <- find_key k e; Ok (match o with Some _ => true | None => false end).
  (** entry.py 258-260: __setitem__ *)
  Definition setitem (k : pyval) (vs : list pyval) (e : entry) : entry :=
    mkEntry (e_dn e) (dict_set k (set_of vs) (e_attrs e)).
  (** entry.py 262-263: __delitem__ *)
  Definition delitem (k : pyval) (e : entry) : res entry :=
    match dict_get k (e_attrs e) with
    | Some _ => Ok (mkEntry (e_dn e) (dict_del k (e_attrs e)))
    | None => Err EKey
    end.
  Definition set_vals (a : aset) (vs : list pyval) (e : entry) : entry :=
    mkEntry (e_dn e) (dict_upd (s_key a) (fun _ => vs) (e_attrs e)).

  (** entry.py 87-88: iteration over the keys *)
  Definition keys_of (e : entry) : list pyval := map s_key (e_attrs e).

  (** entry.py 151-155: the loop of __eq__ *)
  Fixpoint eq_loop (ks : list pyval) (a b : entry) : res bool :=
    match ks with
    | [] => Ok true
    | k :: r =>
        do x <- getitem k a; do y <- getitem k b;
        if negb (aset_eqb x y) then Ok false else eq_loop r a b
    end.
  (** entry.py 141-156: __eq__ between entries *)
  Definition entry_eq (a b : entry) : res bool :=
    if negb (dn_eqb lower (e_dn a) (e_dn b)) then Ok false
    else
      do my <- sort_to_bytes (keys_of a);
      do its <- sort_to_bytes (keys_of b);
      if negb (list_eqb pyval_eqb my its) then Ok false else eq_loop my a b.

  (** delta.py: Add (52), Delete (72), Replace (93) with key and values *)
  Inductive kind := MAdd | MDelete | MReplace.
  Record delta := mkDelta { d_kind : kind; d_key : pyval; d_vals : list pyval }.
  (** Modification(key, values): a set of the values *)
  Definition new_delta k key vs := mkDelta k key (set_of vs).

  (** entry.py 209-219: the part of diff for one shared key *)
  Definition diff_shared (k : pyval) (self other : entry) : res (list delta) :=
    do o <- getitem k other; do s <- getitem k self;
    do a <- (match set_diff (s_vals o) (s_vals s) with
             | [] => Ok []
             | l => do l' <- sort_to_bytes l; Ok [new_delta MAdd k l']
             end);
    do d <- (match set_diff (s_vals s) (s_vals o) with
             | [] => Ok []
             | l => do l' <- sort_to_bytes l; Ok [new_delta MDelete k l']
             end);
    Ok (a ++ d).

  (** entry.py 179-221: diff(self, other): None, or the modifications *)
  Definition diff (self other : entry) : res (option (list delta)) :=
    if negb (dn_eqb lower (e_dn self) (e_dn other)) then Err EAssert
    else
      do e <- entry_eq self other;
      if e then Ok None
      else
        let my := keys_of self in
        let its := keys_of other in
        do added <- sort_to_bytes (set_diff its my);
        do r1 <- mapR (fun k => do a <- getitem k other; Ok (new_delta MAdd k (s_vals a))) added;
        do deleted <- sort_to_bytes (set_diff my its);
        do r2 <- mapR (fun k => do a <- getitem k self; Ok (new_delta MDelete k (s_vals a))) deleted;
        do shared <- sort_to_bytes (set_inter my its);
        do r3 <- mapR (fun k => diff_shared k self other) shared;
        Ok (Some (r1 ++ r2 ++ concat r3)).

  (** delta.py 79-80: the loop of Delete.patch. The entry is changed in place, so what was done
      before an exception stays. *)
  Fixpoint remove_all (k : pyval) (vs : list pyval) (e : entry) : entry * res unit :=
    match vs with
    | [] => (e, Ok tt)
    | v :: r =>
        match (do a <- getitem k e; do l <- aset_remove v (s_vals a); Ok (set_vals a l e)) with
        | Ok e' => remove_all k r e'
        | Err x => (e, Err x)
        end
    end.

  (** delta.py 55-59, 75-80, 96-103: patch(entry) of Add, Delete, Replace *)
  Definition patch1 (m : delta) (e : entry) : entry * res unit :=
    match d_kind m with
    | MAdd =>
        match find_key (d_key m) e with
        | Err x => (e, Err x)
        | Ok (Some a) => (set_vals a (set_update (s_vals a) (d_vals m)) e, Ok tt)
        | Ok None => (setitem (d_key m) (d_vals m) e, Ok tt)
        end
    | MDelete =>
        match d_vals m with
        | [] => match delitem (d_key m) e with Ok e' => (e', Ok tt) | Err x => (e, Err x) end
        | vs => remove_all (d_key m) vs e
        end
    | MReplace =>
        match d_vals m with
        | [] => match delitem (d_key m) e with
                | Ok e' => (e', Ok tt)
                | Err EKey => (e, Ok tt)
                | Err x => (e, Err x)
                end
        | vs => (setitem (d_key m) vs e, Ok tt)
        end
    end.

  (** delta.py 186-189: gotEntry in ModifyOp.patch *)
  Fixpoint patch_all (ms : list delta) (e : entry) : entry * res unit :=
    match ms with
    | [] => (e, Ok tt)
    | m :: r =>
        match patch1 m e with
        | (e', Ok _) => patch_all r e'
        | (e', Err x) => (e', Err x)
        end
    end.
End Entry.
