(** Model of ldaptor/ldiftree.py: a directory as a tree of LDIF files. The file system is that of
    FsModel. Deferreds have already fired: an exception is the outcome. Nothing else changes the files
    while an operation runs, so what an operation will do to them is known when it has read what it
    reads: it is given as a list of steps. *)
From Verif Require Import Base Utf8Model DnModel EntryModel LdifModel InmemModel FsModel.

(** ldiftree.py 17-26: LDIFTreeEntryContainsMultipleEntries, LDIFTreeEntryContainsNoEntries,
    LDIFTreeNoSuchObject *)
Definition EMultiple := EUser 66.
Definition ENoEntries := EUser 67.
Definition ENoSuch := EUser 68.

(** os.path.join(a, b); with more arguments it is repeated *)
Definition pjoin (a b : str) : str :=
  match b with
  | c :: _ => if c =? 47 then b else if str_eqb a [] || (last a 0 =? 47) then a ++ b else a ++ 47 :: b
  | [] => if str_eqb a [] || (last a 0 =? 47) then a else a ++ [47]
  end.
(** s.endswith(t), s[:-len(t)] *)
Definition endswith (t s : str) : bool := str_eqb (skipn (length s - length t) s) t && (length t <=? length s)%nat.
Definition chop (t s : str) : str := firstn (length s - length t) s.
(** s.rpartition(c): what is before the last c and what is behind it *)
Fixpoint rsplit (c : Z) (s : str) : option (str * str) :=
  match s with
  | [] => None
  | x :: r =>
      match rsplit c r with
      | Some (a, b) => Some (x :: a, b)
      | None => if x =? c then Some ([], r) else None
      end
  end.
(** os.path.dirname(s): trailing slashes of the head are removed unless it is all slashes *)
Fixpoint rstrip_slash (s : str) : str :=
  match s with
  | [] => []
  | x :: r => match rstrip_slash r with [] => if x =? 47 then [] else [x] | t => x :: t end
  end.
Definition dirname (s : str) : str :=
  match rsplit 47 s with
  | None => []
  | Some (a, _) => match rstrip_slash (a ++ [47]) with [] => a ++ [47] | t => t end
  end.
(** os.path.splitext(s): the last dot of the last component, unless only dots are before it there *)
Definition splitext (s : str) : str * str :=
  let file := match rsplit 47 s with Some (_, b) => b | None => s end in
  match rsplit 46 file with
  | Some (a, b) =>
      if forallb (Z.eqb 46) a then (s, [])
      else (chop (46 :: b) s, 46 :: b)
  | None => (s, [])
  end.

(** "%s.dir" % rdn.getText(), "%s.ldif" % rdn.getText() *)
Definition dir_name (r : rdn) : str := rdn_text r ++ S_ ".dir".
Definition ldif_name (r : rdn) : str := rdn_text r ++ S_ ".ldif".

(** What f.read(8192) gives, until it gives nothing *)
Fixpoint chunks (fuel : nat) (b : bytes) : list bytes :=
  match fuel, b with
  | S k, _ :: _ => ztake 8192 b :: chunks k (zdrop 8192 b)
  | _, _ => []
  end.

Section LdifTree.
  Variable lower : str -> str.
  Variable io : Z -> Z -> res Z.
  Variable vio : str -> res Z.
  Variable oc : bool.
  (** the order in which os.listdir gives the names *)
  Variable order : list str -> list str.

  (** ldiftree.py 60-75, 141-161: reading the one entry of a file; StoreParsedLDIF 33-43 does not mind
      a truncated file *)
  Definition parse_file (b : bytes) : res entry :=
    match feed lower io vio false ([], p0) (chunks (length b) b) with
    | (_, Err x) => Err x
    | ([], Ok _) => Err ENoEntries
    | ([REntry e], Ok _) => Ok e
    | (_, Ok _) => Err EMultiple
    end.
  (** ldiftree.py 50-59: the file of an entry *)
  Definition entry_file (path : str) (d : dn) : res str :=
    match rev d with
    | [] => Err EAssert
    | l => Ok (pjoin (fold_left pjoin (map dir_name (removelast l)) path) (ldif_name (last l [])))
    end.
  (** ldiftree.py 45-75: get(path, dn) *)
  Definition get (f : fs) (path : str) (d : dn) : res entry :=
    do s <- entry_file path d; do b <- read_file f s; parse_file b.

  (** ldiftree.py 78-85, 245-250: _putEntry(fileName, entry); [uuid] is str(uuid.uuid4()) *)
  Definition put_entry (uuid : str) (fileName : str) (e : entry) : list step * res unit :=
    let tmp := fileName ++ S_ "." ++ uuid ++ S_ ".tmp" in
    match entry_toWire lower oc e with
    | Ok w => ([SCreate tmp; SWrite tmp w; SRename tmp (fileName ++ S_ ".ldif")], Ok tt)
    | Err x => ([SCreate tmp], Err x)
    end.
  (** ldiftree.py 88-116: put(path, entry). That os.mkdir finds the directory there, although it was not
      there a moment ago, does not happen here. *)
  Definition put (f : fs) (uuid : str) (path : str) (e : entry) : list step * res unit :=
    match rev (e_dn e) with
    | [] => ([], Err EAssert)
    | l =>
        let entryRDN := last l [] in
        let l := removelast l in
        match l with
        | [] => put_entry uuid (pjoin path (rdn_text entryRDN)) e
        | _ =>
            let grandParent := fold_left pjoin (map dir_name (removelast l)) path in
            let parentEntry := pjoin grandParent (ldif_name (last l [])) in
            let parentDir := pjoin grandParent (dir_name (last l [])) in
            if exists_ f parentDir then put_entry uuid (pjoin parentDir (rdn_text entryRDN)) e
            else if negb (exists_ f parentEntry) then ([], Err ENoSuch)
            else let (s, r) := put_entry uuid (pjoin parentDir (rdn_text entryRDN)) e in (SMkdir parentDir :: s, r)
        end
    end.

  (** ldiftree.py 120-133: a LDIFTreeEntry *)
  Record lent := mkLent { t_path : str; t_entry : entry }.
  Definition t_dn (t : lent) : dn := e_dn (t_entry t).
  (** ldiftree.py 135-163: _load(). The attributes are those of the entry read, whose keys are distinct. *)
  Definition load (f : fs) (path : str) (d : dn) : res entry :=
    if negb (endswith (S_ ".dir") path) then Err EAssert
    else match read_file f (chop (S_ ".dir") path ++ S_ ".ldif") with
         | Err (EUser 60) => Ok (mkEntry d [])
         | Err x => Err x
         | Ok b => do e <- parse_file b; Ok (mkEntry d (e_attrs e))
         end.
  (** ldiftree.py 127-133: LDIFTreeEntry(path, dn) *)
  Definition open_entry (f : fs) (path : str) (d : dn) : res lent :=
    if str_eqb (dn_text d) [] then Ok (mkLent path (mkEntry d []))
    else do e <- load f path d; Ok (mkLent path e).

  (** ldiftree.py 183-199: the loop of _sync_children *)
  Fixpoint children_loop (f : fs) (t : lent) (seen names : list str) : res (list lent) :=
    match names with
    | [] => Ok []
    | fn :: r =>
        let (base, ext) := splitext fn in
        if negb (str_eqb ext (S_ ".dir") || str_eqb ext (S_ ".ldif")) then children_loop f t seen r
        else if existsb (str_eqb base) seen then children_loop f t seen r
        else
          do rd <- parse_rdn io base;
          do c <- open_entry f (pjoin (t_path t) (base ++ S_ ".dir")) (rd :: t_dn t);
          do cs <- children_loop f t (base :: seen) r;
          Ok (c :: cs)
    end.
  (** ldiftree.py 173-200: _sync_children() *)
  Definition sync_children (f : fs) (t : lent) : res (list lent) :=
    match listdir f (t_path t) with
    | Err (EUser 60) => Ok []
    | Err x => Err x
    | Ok names => children_loop f t [] (order names)
    end.
  (** ldiftree.py 214-233: lookup(dn). The assertions there hold because the DN contains the other one
      and is not equal to it. *)
  Fixpoint t_lookup (depth : nat) (f : fs) (t : lent) (d : dn) : res lent :=
    match depth with
    | O => Err ERecursion
    | S k =>
        if negb (contains lower (t_dn t) d) then Err ENoSuchObject
        else if dn_eqb lower d (t_dn t) then Ok t
        else
          match nth_error d (length d - length (t_dn t) - 1) with
          | None => Err EIndex
          | Some rd =>
              let path := pjoin (t_path t) (dir_name rd) in
              let entry := pjoin (t_path t) (ldif_name rd) in
              if negb (isdir f path) && negb (isfile f entry) then Err ENoSuchObject
              else do c <- open_entry f path (rd :: t_dn t); t_lookup k f c d
          end
    end.
  (** ldiftree.py 238, 278: whether a child has this RDN *)
  Definition has_rdn (rd : rdn) (c : lent) : bool :=
    match t_dn c with x :: _ => rdn_eqb lower x rd | [] => false end.
  (** ldiftree.py 235-250: addChild(rdn, attributes), what it does to the files *)
  Definition add_child_steps (f : fs) (t : lent) (uuid : str) (rd : rdn) (attrs : list (pyval * list pyval)) : list step * res unit :=
    match sync_children f t with
    | Err x => ([], Err x)
    | Ok cs =>
        if existsb (has_rdn rd) cs then ([], Err EAlreadyExists)
        else
          let e := new_entry lower (rd :: t_dn t) attrs in
          let (s, r) := put_entry uuid (pjoin (t_path t) (rdn_text rd)) e in
          (if exists_ f (t_path t) then s else SMkdir (t_path t) :: s, r)
    end.
  (** ldiftree.py 235-257: addChild(rdn, attributes) *)
  Definition t_add_child (f : fs) (t : lent) (uuid : str) (rd : rdn) (attrs : list (pyval * list pyval)) : fs * res lent :=
    let (s, r) := add_child_steps f t uuid rd attrs in
    let (f', o) := run f s r in
    (f', do _ <- o; open_entry f' (pjoin (t_path t) (dir_name rd)) (rd :: t_dn t)).
  (** ldiftree.py 259-272: delete() *)
  Definition delete_steps (f : fs) (t : lent) : list step * res unit :=
    if str_eqb (dn_text (t_dn t)) [] then ([], Err ENamingViolation)
    else match sync_children f t with
         | Err x => ([], Err x)
         | Ok (_ :: _) => ([], Err ENonLeaf)
         | Ok [] =>
             if negb (endswith (S_ ".dir") (t_path t)) then ([], Err EAssert)
             else ([SRemove (chop (S_ ".dir") (t_path t) ++ S_ ".ldif")], Ok tt)
         end.
  Definition t_delete (f : fs) (t : lent) : fs * res unit := let (s, r) := delete_steps f t in run f s r.
  (** ldiftree.py 274-283: deleteChild(rdn) *)
  Definition t_delete_child (f : fs) (t : lent) (rd : rdn) : fs * res unit :=
    match sync_children f t with
    | Err x => (f, Err x)
    | Ok cs => match find (has_rdn rd) cs with Some c => t_delete f c | None => (f, Err ENoSuchObject) end
    end.
  (** ldiftree.py 300-312: commit(); True, or False when there was an exception *)
  Definition t_commit (f : fs) (uuid : str) (t : lent) : fs * res bool :=
    if negb (endswith (S_ ".dir") (t_path t)) then (f, Err EAssert)
    else let (s, r) := put_entry uuid (chop (S_ ".dir") (t_path t)) (t_entry t) in
         let (f', o) := run f s r in (f', Ok (match o with Ok _ => true | Err _ => false end)).

  (** ldiftree.py 317-332: _move, the new parent; os.path.dirname once for each RDN *)
  Fixpoint climb (d : dn) (path : str) : str := match d with [] => path | _ :: r => climb r (dirname path) end.
  Definition new_parent (depth : nat) (f : fs) (t : lent) (newDN : dn) : res (option lent) :=
    if negb (dn_eqb lower (dn_up newDN) (dn_up (t_dn t))) then
      do root <- open_entry f (climb (t_dn t) (t_path t)) [];
      do p <- t_lookup depth f root (dn_up newDN); Ok (Some p)
    else Ok None.
  Fixpoint each_value (g : atv -> entry -> res entry) (avs : list atv) (e : entry) : res entry :=
    match avs with [] => Ok e | a :: r => do e' <- g a e; each_value g r e' end.
  (** ldiftree.py 334-368: _move2(newParent, newDN), up to the commit: the steps, and the moved entry.
      When an attribute value is missing nothing has happened to the files. *)
  Definition move_steps (t : lent) (parent : option lent) (newDN : dn) : res (list step * lent) :=
    match t_dn t, newDN with
    | oldRDN :: _, newRDN :: _ =>
        do e1 <- each_value (remove_av lower) oldRDN (t_entry t);
        do e2 <- each_value (add_av lower) newRDN e1;
        let dstdir := match parent with None => dirname (t_path t) | Some p => t_path p end in
        let newpath := pjoin dstdir (dir_name newRDN) in
        let (basename, ext) := splitext (t_path t) in
        if negb (str_eqb ext (S_ ".dir")) then Err EAssert
        else Ok ([STryRename (t_path t) newpath; SRename (basename ++ S_ ".ldif") (pjoin dstdir (ldif_name newRDN))],
                 mkLent newpath (mkEntry newDN (e_attrs e2)))
    | _, _ => Err EIndex
    end.
  (** ldiftree.py 314-368: move(newDN) *)
  Definition t_move (depth : nat) (f : fs) (uuid : str) (t : lent) (newDN : dn) : fs * res (lent * bool) :=
    match (do p <- new_parent depth f t newDN; move_steps t p newDN) with
    | Err x => (f, Err x)
    | Ok (s, t') =>
        match run f s (Ok tt) with
        | (f', Err x) => (f', Err x)
        | (f', Ok _) => let (f'', o) := t_commit f' uuid t' in (f'', do b <- o; Ok (t', b))
        end
    end.
End LdifTree.
