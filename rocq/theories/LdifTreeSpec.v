(** Specification side of the LDIF tree. *)
From Verif Require Import Base Utf8Model DnModel DnSpec EntryModel LdifModel LdifSpec InmemModel InmemSpec FsModel LdifTreeModel.

(** A name of a file or directory, other than "." and "..". *)
Definition fname (n : str) : Prop := n <> [] /\ ~ In 47 n /\ ~ In 0 n /\ n <> S_ "." /\ n <> S_ "..".
(** The text of an absolute path. *)
Definition abs (p : path) : str := concat (map (fun n => 47 :: n) p).
(** A directory other than the root directory, for a tree. *)
Definition tree_root (R : path) : Prop := R <> [] /\ Forall fname R.
(** Everything that is there is in a directory. *)
Definition closed (f : fs) : Prop := forall p n, stat f (p ++ [n]) <> None -> stat f p = Some Dir.
(** RDNs without slashes. *)
Definition plain_rdn (r : rdn) : Prop :=
  r <> [] /\ Forall atv_ok r /\ Forall (fun a => ~ In 47 (a_type a) /\ ~ In 47 (a_value a)) r.
Definition plain (d : dn) : Prop := Forall plain_rdn d.
(** Part of a name. *)
Definition part (s : str) : Prop := ~ In 47 s /\ ~ In 0 s.

(** Where an entry with this DN is stored: its own file, in the directory of its parent. *)
Definition dirs_of (d : dn) : path := map (fun r => rdn_text r ++ S_ ".dir") (rev d).
Definition file_of (d : dn) : path :=
  match d with [] => [] | r :: p => dirs_of p ++ [rdn_text r ++ S_ ".ldif"] end.

(** [q] is [p] or below it. *)
Definition inside (p q : path) : Prop := exists s, q = p ++ s.

(** ** Histories *)
Section Hist.
  Variable lower : str -> str.
  Variable io : Z -> Z -> res Z.
  Variable vio : str -> res Z.
  Variable oc : bool.
  Variable order : list str -> list str.
  Variable R : path.
  (** LDIFTreeEntry(path): the root of the tree *)
  Definition t_root : lent := mkLent (abs R) (mkEntry [] []).
  (** One request, with the random name for its temporary file. *)
  Definition tree_hop (depth : nat) (u : str) (x : hop) (f : fs) : fs * res unit :=
    match x with
    | HAdd parent rd a =>
        match t_lookup lower io vio depth f t_root parent with
        | Ok t => let (f', o) := t_add_child lower io vio oc order f t u rd a in (f', do _ <- o; Ok tt)
        | Err e => (f, Err e)
        end
    | HDelete d =>
        match t_lookup lower io vio depth f t_root d with
        | Ok t => t_delete lower io vio order f t
        | Err e => (f, Err e)
        end
    end.
  Fixpoint tree_hops (depth : nat) (xs : list (str * hop)) (f : fs) : fs * list (res unit) :=
    match xs with
    | [] => (f, [])
    | (u, x) :: r => let (f1, o) := tree_hop depth u x f in let (f2, os) := tree_hops depth r f1 in (f2, o :: os)
    end.

  (** The requests: RDNs of [C], DNs with fewer levels than the recursion limit, entries that LDIF can
      carry in lines that are not too long. *)
  Definition storable (e : entry) : Prop := ldif_entry_ok lower e /\ forall w, entry_toWire lower oc e = Ok w -> short_lines w.
  Definition tree_hop_ok (C : rdn -> Prop) (depth : nat) (u : str) (x : hop) : Prop :=
    part u /\
    match x with
    | HAdd parent rd a => Forall C (rd :: parent) /\ (length parent < depth)%nat /\ storable (new_entry lower (rd :: parent) a)
    | HDelete d => Forall C d /\ (length d < depth)%nat
    end.
  (** No entry that ever had a child is deleted. [had]: the entries that had one so far. *)
  Fixpoint tidy (xs : list (str * hop)) (m : dir) (had : list dn) : Prop :=
    match xs with
    | [] => True
    | (_, x) :: r =>
        match x with HDelete d => snd (spec_hop lower [] x m) = Ok tt -> ~ In d had | HAdd _ _ _ => True end /\
        tidy r (fst (spec_hop lower [] x m)) (match x with HAdd p _ _ => p :: had | HDelete _ => had end)
    end.
End Hist.

(** ** Places *)
(** The part of the file system that is the directory [R], what is in it, and what leads to it. *)
Definition only (R : path) (f : fs) : fs := List.filter (fun x => below_or_at R (fst x) || below_or_at (fst x) R) f.
(** Nothing outside the directory [R] has changed. *)
Definition kept_outside (R : path) (f f' : fs) : Prop := forall q, ~ inside R q -> stat f' q = stat f q.
(** An entry whose files are in the directory [R]. *)
Definition in_place (R : path) (t : lent) : Prop := exists p, Forall fname p /\ t_path t = abs (R ++ p).
(** Names in a file system have no slash in them. *)
Definition named (f : fs) : Prop := forall p n, In (p, n) f -> Forall fname p.
(** An empty directory. *)
Definition empty_dir (f : fs) (R : path) : Prop := stat f R = Some Dir /\ forall n q, stat f (R ++ n :: q) = None.

(** ** Crashes *)
(** An entry whose files are where its DN says. *)
Definition placed (R : path) (t : lent) : Prop := t_path t = abs (R ++ dirs_of (t_dn t)) /\ plain (t_dn t).
(** [f'] was left by a crash while [e] was stored in [f]: either nothing that can be read has changed,
    or the whole was done, the file of [e] has what was to be written, and all other files are as before. *)
Definition after_crash (lower : str -> str) (io : Z -> Z -> res Z) (vio : str -> res Z) (oc : bool) (R : path) (f f' : fs) (e : entry) (whole : Prop) : Prop :=
  closed f' /\
  ((forall d, plain d -> get lower io vio f' (abs R) d = get lower io vio f (abs R) d) \/
   (whole /\ exists w, entry_toWire lower oc e = Ok w /\ get lower io vio f' (abs R) (e_dn e) = parse_file lower io vio w /\
      forall d, plain d -> d <> e_dn e -> get lower io vio f' (abs R) d = get lower io vio f (abs R) d)).
