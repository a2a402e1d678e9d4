(** Model of ldaptor/entryhelpers.py, DiffTreeMixin (19-126), and of the patch methods of
    ldaptor/delta.py (183-192, 233-240, 286-293), on in-memory trees. Deferreds have always fired,
    so the callbacks run in the order in which they were added. *)
From Verif Require Import Base Utf8Model DnModel EntryModel LdapSpec MatchModel InmemModel ServerModel.

(** delta.py 130-133, 224-225, 262-276: ModifyOp(dn, modifications), AddOp(entry), DeleteOp(entry).
    AddOp keeps the entry itself; entries of the other tree are not changed in between here. *)
Inductive top := TModify (d : dn) (ms : list delta) | TAdd (e : entry) | TDelete (d : dn).

Section TreeDiff.
  Variable lower : str -> str.
  (** The order of {"objectClass", b"objectClass"}, entry.py 37-38. *)
  Variable oc_first : bool.
  (** hash() of a pair of str and of a tuple of hashes. *)
  Variable hash_pair : str * str -> Z.
  Variable hash_tuple : list Z -> Z.
  (** Python's recursion limit, counted in levels of the tree. *)
  Variable depth : nat.

  (** x.dn.split()[0] *)
  Definition rdn_of (h : heap) (c : ref) : res rdn :=
    do n <- deref h c; match n_dn n with rd :: _ => Ok rd | [] => Err EIndex end.

  (** Sets of RDNs: an element is found by its hash and then by == (distinguishedname.py 203-204,
      175-183). The order of a set is not modelled: here it is the order of insertion. *)
  Definition same_rdn (a b : rdn) : bool :=
    Z.eqb (rdn_hash hash_pair hash_tuple a) (rdn_hash hash_pair hash_tuple b) && rdn_eqb lower a b.
  Definition rdn_mem (x : rdn) (l : list rdn) : bool := existsb (same_rdn x) l.
  Fixpoint rdn_set (l : list rdn) (acc : list rdn) : list rdn :=
    match l with [] => acc | x :: r => rdn_set r (if rdn_mem x acc then acc else acc ++ [x]) end.
  (** list.sort(): by < of RDNs *)
  Definition sort_rdns (l : list rdn) : list rdn := sort_by (fun x y => negb (rdn_ltb lower y x)) l.

  (** entryhelpers.py 26-29: rdnToChild(rdn, l) *)
  Definition rdn_to_child (h : heap) (cs : list ref) (rd : rdn) : res ref :=
    do l <- mapR (fun c => do x <- rdn_of h c; Ok (x, c)) cs;
    match List.filter (fun x => rdn_eqb lower (fst x) rd) l with
    | [x] => Ok (snd x)
    | _ => Err EAssert
    end.

  (** children(): inmemory.py 32-38 without a callback *)
  Definition children_of (h : heap) (r : ref) : res (list ref) := do n <- deref h r; Ok (map snd (n_children n)).
  (** entryhelpers.py 127-133: subtree() without a callback: the entries in the order visited *)
  Definition whole (h : heap) (r : ref) : res (list ref) :=
    match subtree (fun c s => (s ++ [c], None)) depth h r [] with
    | (l, None) => Ok l
    | (_, Some x) => Err x
    end.
  Definition entry_of (h : heap) (c : ref) : res entry := do n <- deref h c; Ok (n_entry n).

  (** entryhelpers.py 69-85: _diffTree_addedChildren *)
  Fixpoint added_ops (h : heap) (cs : list ref) : res (list top) :=
    match cs with
    | [] => Ok []
    | c :: r =>
        do l <- whole h c; do es <- mapR (entry_of h) l; do ops <- added_ops h r;
        Ok (map TAdd es ++ ops)
    end.
  (** entryhelpers.py 87-104: _diffTree_deletedChildren *)
  Fixpoint deleted_ops (h : heap) (cs : list ref) : res (list top) :=
    match cs with
    | [] => Ok []
    | c :: r =>
        do l <- whole h c; do es <- mapR (entry_of h) (rev l); do ops <- deleted_ops h r;
        Ok (map (fun e => TDelete (e_dn e)) es ++ ops)
    end.

  (** entryhelpers.py 106-126 with 20-67: self.diffTree(other); the two trees may be in different
      heaps. [n] is what is left of the recursion limit. An exception anywhere makes the whole
      Deferred fail. *)
  Fixpoint diff_tree (n : nat) (hA : heap) (a : ref) (hB : heap) (b : ref) : res (list top) :=
    match n with
    | O => Err ERecursion
    | S n' =>
        do ea <- entry_of hA a; do eb <- entry_of hB b;
        if negb (dn_eqb lower (e_dn ea) (e_dn eb)) then Err EAssert
        else
          do rootDiff <- diff lower ea eb;
          let first := match rootDiff with Some ms => [TModify (e_dn ea) ms] | None => [] end in
          do mine <- children_of hA a; do its <- children_of hB b;
          do myr <- mapR (rdn_of hA) mine; do hisr <- mapR (rdn_of hB) its;
          let my := rdn_set myr [] in
          let his := rdn_set hisr [] in
          let commonRDN := sort_rdns (List.filter (fun x => rdn_mem x his) my) in
          let addedRDN := sort_rdns (List.filter (fun x => negb (rdn_mem x my)) his) in
          let deletedRDN := sort_rdns (List.filter (fun x => negb (rdn_mem x his)) my) in
          do pairs <- mapR (fun rd => do x <- rdn_to_child hA mine rd; do y <- rdn_to_child hB its rd; Ok (x, y)) commonRDN;
          do common <- mapR (fun p => diff_tree n' hA (fst p) hB (snd p)) pairs;
          do ac <- mapR (rdn_to_child hB its) addedRDN;
          do added <- added_ops hB ac;
          do dc <- mapR (rdn_to_child hA mine) deletedRDN;
          do deleted <- deleted_ops hA dc;
          Ok (first ++ concat common ++ added ++ deleted)
    end.

  (** delta.py 183-192, 233-240, 286-293: op.patch(root), root the entry [rt]. A modification that
      raises leaves what was done before. *)
  Definition patch_op (rt : ref) (op : top) (h : heap) : heap * res unit :=
    match op with
    | TModify d ms =>
        match (do r <- lookup lower depth h rt d; do n <- deref h r; Ok (r, n)) with
        | Err x => (h, Err x)
        | Ok (r, n) => let (e, o) := patch_all lower ms (n_entry n) in (set_nth r (set_entry n e) h, o)
        end
    | TAdd e =>
        match (do p <- lookup lower depth h rt (dn_up (e_dn e));
               match e_dn e with
               | [] => Err EIndex
               | rd :: _ => do its <- items lower oc_first e; add_child lower h p rd its
               end) with
        | Ok (h', _) => (h', Ok tt)
        | Err x => (h, Err x)
        end
    | TDelete d =>
        match (do r <- lookup lower depth h rt d; delete h r) with
        | Ok (h', _) => (h', Ok tt)
        | Err x => (h, Err x)
        end
    end.
  (** Every operation in turn. *)
  Fixpoint patch_ops (rt : ref) (ops : list top) (h : heap) : heap * list (res unit) :=
    match ops with
    | [] => (h, [])
    | op :: r => let (h1, o) := patch_op rt op h in let (h2, os) := patch_ops rt r h1 in (h2, o :: os)
    end.
End TreeDiff.
