(** Specification side of comparing filters. *)
From Coq Require Import Permutation.
From Verif Require Import Base LdapSpec.

(** [g] is [f] with the parts of its ands and ors in another order, at any depth, but not below a not. *)
Inductive reordered : filter -> filter -> Prop :=
| re_same f : reordered f f
| re_and l m m' : Permutation m' m -> Forall2 reordered l m' -> reordered (FAnd l) (FAnd m)
| re_or l m m' : Permutation m' m -> Forall2 reordered l m' -> reordered (FOr l) (FOr m).

(** An and or an or, with its parts. *)
Definition members (f : filter) : option (list filter) :=
  match f with FAnd l | FOr l => Some l | _ => None end.

(** The same, where any of these ands may be an or and the other way round. *)
Inductive confused : filter -> filter -> Prop :=
| co_same f : confused f f
| co_members f g l m m' : members f = Some l -> members g = Some m ->
    Permutation m' m -> Forall2 confused l m' -> confused f g.

(** No or, or no and, outside the nots of a filter. *)
Fixpoint no_or (f : filter) : Prop :=
  match f with
  | FAnd l => (fix all l := match l with [] => True | g :: r => no_or g /\ all r end) l
  | FOr _ => False
  | _ => True
  end.
Fixpoint no_and (f : filter) : Prop :=
  match f with
  | FOr l => (fix all l := match l with [] => True | g :: r => no_and g /\ all r end) l
  | FAnd _ => False
  | _ => True
  end.

(** Not an and or an or. *)
Definition single (f : filter) : Prop := members f = None.
