(** A file system as ldaptor/ldiftree.py sees it through the os module: POSIX, no symbolic links, no
    limits on names or space, no other process. It is no code of the repository; it is what C52-C54
    assume. A name is text (the code passes str), and the current directory is the root directory. *)
From Verif Require Import Base Utf8Model DnModel.

Inductive node := File (b : bytes) | Dir.
Definition path := list str.
(** Absolute paths and what is there; the root directory is always there. *)
Definition fs := list (path * node).

(** OSError with errno *)
Definition ENOENT := EUser 60.
Definition ENOTDIR := EUser 61.
Definition EEXIST := EUser 62.
Definition EISDIR := EUser 63.
Definition ENOTEMPTY := EUser 64.
Definition EINVAL := EUser 65.

Definition path_eqb : path -> path -> bool := list_eqb str_eqb.
Definition stat (f : fs) (p : path) : option node :=
  match p with [] => Some Dir | _ => option_map snd (find (fun x => path_eqb (fst x) p) f) end.
Definition drop_node (f : fs) (p : path) : fs := List.filter (fun x => negb (path_eqb (fst x) p)) f.
Definition put_node (f : fs) (p : path) (n : node) : fs := drop_node f p ++ [(p, n)].

(** str.split("/") *)
Fixpoint split_slash (s : str) : list str :=
  match s with
  | [] => [[]]
  | c :: r => if c =? 47 then [] :: split_slash r
              else match split_slash r with x :: l => (c :: x) :: l | [] => [[c]] end
  end.
(** Path resolution, from the directory [cur]. *)
Fixpoint walk_to (f : fs) (cur : path) (comps : list str) : res path :=
  match comps with
  | [] => Ok cur
  | c :: r =>
      match stat f cur with
      | None => Err ENOENT
      | Some (File _) => Err ENOTDIR
      | Some Dir =>
          if str_eqb c [] || str_eqb c (S_ ".") then walk_to f cur r
          else if str_eqb c (S_ "..") then walk_to f (removelast cur) r
          else walk_to f (cur ++ [c]) r
      end
  end.
Definition resolve (f : fs) (s : str) : res path :=
  if existsb (Z.eqb 0) s then Err EValue
  else match s with [] => Err ENOENT | _ => walk_to f [] (split_slash s) end.

(** os.path.exists, isdir, isfile *)
Definition look (f : fs) (s : str) : option node := match resolve f s with Ok p => stat f p | Err _ => None end.
Definition exists_ (f : fs) (s : str) : bool := match look f s with Some _ => true | None => false end.
Definition isdir (f : fs) (s : str) : bool := match look f s with Some Dir => true | _ => false end.
Definition isfile (f : fs) (s : str) : bool := match look f s with Some (File _) => true | _ => false end.

(** open(s, "rb").read() *)
Definition read_file (f : fs) (s : str) : res bytes :=
  do p <- resolve f s;
  match stat f p with Some (File b) => Ok b | Some Dir => Err EISDIR | None => Err ENOENT end.
(** open(s, "wb") *)
Definition create (f : fs) (s : str) : res fs :=
  do p <- resolve f s;
  match stat f p with Some Dir => Err EISDIR | _ => Ok (put_node f p (File [])) end.
(** Writing at the end of an open file. *)
Definition append (f : fs) (s : str) (b : bytes) : res fs :=
  do p <- resolve f s;
  match stat f p with Some (File old) => Ok (put_node f p (File (old ++ b))) | Some Dir => Err EISDIR | None => Err ENOENT end.
(** os.mkdir *)
Definition mkdir (f : fs) (s : str) : res fs :=
  do p <- resolve f s; match stat f p with Some _ => Err EEXIST | None => Ok (put_node f p Dir) end.
(** os.remove *)
Definition remove (f : fs) (s : str) : res fs :=
  do p <- resolve f s;
  match stat f p with Some (File _) => Ok (drop_node f p) | Some Dir => Err EISDIR | None => Err ENOENT end.
(** The names in a directory. *)
Definition names_in (f : fs) (p : path) : list str :=
  flat_map (fun x => match fst x with
                     | [] => []
                     | _ => if path_eqb (removelast (fst x)) p then [last (fst x) []] else []
                     end) f.
(** os.listdir; the order is an argument where it is used *)
Definition listdir (f : fs) (s : str) : res (list str) :=
  do p <- resolve f s;
  match stat f p with Some Dir => Ok (names_in f p) | Some (File _) => Err ENOTDIR | None => Err ENOENT end.
(** os.rename *)
Fixpoint below_or_at (p q : path) : bool :=
  match p, q with [], _ => true | x :: p', y :: q' => str_eqb x y && below_or_at p' q' | _, [] => false end.
Definition move_tree (f : fs) (p q : path) : fs :=
  map (fun x => if below_or_at p (fst x) then (q ++ skipn (length p) (fst x), snd x) else x) (drop_node f q).
Definition rename (f : fs) (a b : str) : res fs :=
  do p <- resolve f a; do q <- resolve f b;
  match stat f p with
  | None => Err ENOENT
  | Some (File c) =>
      match stat f q with
      | Some Dir => Err EISDIR
      | _ => if path_eqb p q then Ok f else Ok (put_node (drop_node f p) q (File c))
      end
  | Some Dir =>
      if path_eqb p q then Ok f
      else if below_or_at p q then Err EINVAL
      else match stat f q with
           | Some (File _) => Err ENOTDIR
           | Some Dir => match names_in f q with [] => Ok (move_tree f p q) | _ => Err ENOTEMPTY end
           | None => Ok (move_tree f p q)
           end
  end.

(** ** Steps *)
(** What a program does to the file system, one indivisible step after another. A write may be cut
    short by a crash. [STryRename] ignores ENOENT. *)
Inductive step := SMkdir (s : str) | SCreate (s : str) | SWrite (s : str) (b : bytes) | SRename (a b : str) | STryRename (a b : str) | SRemove (s : str).
Definition run_step (f : fs) (s : step) : res fs :=
  match s with
  | SMkdir p => mkdir f p
  | SCreate p => create f p
  | SWrite p b => append f p b
  | SRename a b => rename f a b
  | STryRename a b => match rename f a b with Err (EUser 60) => Ok f | x => x end
  | SRemove p => remove f p
  end.
(** The steps of a program that ends with [r]; an exception ends it earlier. *)
Fixpoint run {A} (f : fs) (l : list step) (r : res A) : fs * res A :=
  match l with
  | [] => (f, r)
  | s :: l' => match run_step f s with Ok f' => run f' l' r | Err x => (f, Err x) end
  end.
(** [crash f l f']: the program stopped somewhere in the steps [l], begun in [f], and left [f']. *)
Inductive crash : fs -> list step -> fs -> Prop :=
| crash_here f l : crash f l f
| crash_in_write f s b b' rest l f' : b = b' ++ rest -> append f s b' = Ok f' -> crash f (SWrite s b :: l) f'
| crash_later f s l f1 f' : run_step f s = Ok f1 -> crash f1 l f' -> crash f (s :: l) f'.
