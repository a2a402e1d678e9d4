(** Specification for the tool that renames an entry: where the password comes from, and the courses of a run. *)
From Verif Require Import Base Utf8Model DnModel RenameModel.

(** The password on a file descriptor is one line, without its end. *)
Inductive given : option Z -> res str -> res (option str) -> Prop :=
| g_none : forall l, given None l (Ok None)
| g_zero : forall l, given (Some 0) l (Ok None)
| g_line : forall n p, n <> 0 -> given (Some n) (Ok (p ++ [10])) (Ok (Some p))
| g_empty : forall n, n <> 0 -> given (Some n) (Ok []) (Err EIndex)
| g_open : forall n p c, n <> 0 -> c <> 10 -> given (Some n) (Ok (p ++ [c])) (Err EAssert)
| g_broken : forall n x, n <> 0 -> given (Some n) (Err x) (Err x).
(** What is asked for, and the name and password of the bind *)
Inductive login (binddn : option str) (pw : option str) : list revent -> str -> str -> Prop :=
| i_anonymous : binddn = None \/ binddn = Some [] -> login binddn pw [] [] []
| i_known : forall b p, binddn = Some b -> b <> [] -> pw = Some p -> login binddn pw [] b p
| i_typed : forall b p, binddn = Some b -> b <> [] -> pw = None -> login binddn pw [RAsk b] b p.
(** The courses of a run, with the exit status *)
Section Course.
  Variable binddn pw : option str.
  Variable f t : dn.
  Inductive course : list revent -> Z -> Prop :=
  | s_waiting : course [RConnect f] 0
  | s_refused : forall x, course [RConnect f; RFail x; RStop] 1
  | s_untyped : forall b x, binddn = Some b -> b <> [] -> pw = None -> course [RConnect f; RAsk b; RFail x; RStop] 1
  | s_binding : forall es d p, login binddn pw es d p -> course (RConnect f :: es ++ [RBind d p]) 0
  | s_unbound : forall es d p x, login binddn pw es d p -> course (RConnect f :: es ++ [RBind d p; RFail x; RStop]) 1
  | s_no_name : forall es d p, login binddn pw es d p -> t = [] -> course (RConnect f :: es ++ [RBind d p; RBound; RFail EIndex; RStop]) 1
  | s_moving : forall es d p r s, login binddn pw es d p -> t = r :: s ->
      course (RConnect f :: es ++ [RBind d p; RBound; RMove (dn_text f) (rdn_text r) (dn_text s)]) 0
  | s_failed : forall es d p r s x, login binddn pw es d p -> t = r :: s ->
      course (RConnect f :: es ++ [RBind d p; RBound; RMove (dn_text f) (rdn_text r) (dn_text s); RFail x; RStop]) 1
  | s_moved : forall es d p r s, login binddn pw es d p -> t = r :: s ->
      course (RConnect f :: es ++ [RBind d p; RBound; RMove (dn_text f) (rdn_text r) (dn_text s); RMoved; RStop]) 0.
End Course.
