(** Specification for the tool that finds a free number: what it was told, and how long it may ask. *)
From Verif Require Import Base Utf8Model UtilModel FreeNumberModel.

(** The tool asked for a number, and was told how many entries have it. *)
Definition was_told (tr : list gevent) (n : Z) (count : nat) : Prop :=
  exists a b, tr = a ++ GSearch (S_ "uidNumber") (dec n) 1 :: GReply (Ok count) :: b.
Definition is_search (e : gevent) : bool := match e with GSearch _ _ _ => true | _ => false end.
Definition searches (tr : list gevent) : nat := length (filter is_search tr).
(** The traces of a tool that was connected: questions and replies in turn, and one end *)
Inductive talk : list gevent -> Prop :=
| k_first : talk [GConnect; GSearch (S_ "uidNumber") (dec 1000) 1]
| k_next : forall tr c n, talk tr -> talk (tr ++ [GReply (Ok c); GSearch (S_ "uidNumber") (dec n) 1]).
Inductive session : list gevent -> Prop :=
| n_base : session [GNoBase]
| n_waiting : session [GConnect]
| n_refused : forall x, session [GConnect; GFail x; GStop]
| n_talk : forall tr, talk tr -> session tr
| n_failed : forall tr x, talk tr -> session (tr ++ [GReply (Err x); GFail x; GStop])
| n_done : forall tr c n, talk tr -> session (tr ++ [GReply (Ok c); GPrint (dec n ++ [10]); GStop]).
