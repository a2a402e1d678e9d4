(** Specification side of comparing entries and operations. *)
From Verif Require Import Base Utf8Model DnModel EntryModel.

(** An entry as every constructor and setter leaves it: no attribute twice, no value twice. Keys and values
    may be text or bytes in any mixture. *)
Definition well_formed (lower : str -> str) (e : entry) : Prop :=
  NoDup (map (fun a => lowv lower (s_key a)) (e_attrs e)) /\ Forall (fun a => NoDup (s_vals a)) (e_attrs e).

(** The same modification, its values in any order. *)
Definition same_change (a b : delta) : Prop :=
  d_kind a = d_kind b /\ d_key a = d_key b /\ forall v, In v (d_vals a) <-> In v (d_vals b).
