(** Specification for the tool that finds servers: what is seen of each question. *)
From Verif Require Import Base Utf8Model DnModel DnSpec FindServerModel.

(** The DN that an event is about *)
Definition fabout (e : fevent) : option nat :=
  match e with
  | FLookup k _ | FPrint k _ | FError k _ | FRaised k _ => Some k
  | FUsage | FStop => None
  end.
Definition fview (k : nat) (tr : list fevent) : list fevent := filter (fun e => match fabout e with Some j => Nat.eqb j k | None => false end) tr.
(** The first answer to a question *)
Definition first_answer (k : nat) (l : list (nat * res answers)) : option (res answers) :=
  option_map snd (find (fun p => Nat.eqb (fst p) k) l).
(** The records of servers of an answer, of all sections, in order *)
Definition servers_of (a : answers) : list srv := flat_map (fun r => match r with RSrv s => [s] | ROther => [] end) (concat a).
(** What is printed about a record *)
Definition says (dec : Z -> str) (dn : str) (s : srv) (t : str) : Prop :=
  t = dn ++ [9] ++ S_ "pri=" ++ dec (s_priority s) ++ S_ " weight=" ++ dec (s_weight s) ++ [32] ++ s_target s ++ [58] ++ dec (s_port s).
(** What is seen after the question, given the answer *)
Inductive told (dec : Z -> str) (k : nat) (dn : str) : option (res answers) -> list fevent -> Prop :=
| t_silent : told dec k dn None []
| t_lines : forall a ts, Forall2 (says dec dn) (servers_of a) ts -> told dec k dn (Some (Ok a)) (map (FPrint k) ts)
| t_error : forall x, told dec k dn (Some (Err x)) [FError k x].
(** The name that is to be asked for: that of the domain which the last RDNs spell, as in C67 *)
Definition asks (upper : str -> str) (d : dn) (name : str) : Prop :=
  exists pre dcs vs, d = pre ++ dcs /\ Forall2 (is_dc upper) vs dcs /\ (forall pre' r v, pre = pre' ++ [r] -> ~ is_dc upper v r) /\
    name = S_ "_ldap._tcp." ++ match vs with [] => S_ "None" | _ => join (S_ ".") vs end.
