(** Specification side of the conversion of modify operations. *)
From Verif Require Import Base Utf8Model DnModel EntryModel EntrySpec.

(** The same modification, up to the text or bytes form of key and values. *)
Definition same_mod (m m' : delta) : Prop :=
  d_kind m' = d_kind m /\ same_value (d_key m) (d_key m') /\ (exists b, d_key m' = PBytes b) /\
  NoDup (d_vals m') /\ (forall v, In v (d_vals m') -> exists b, v = PBytes b) /\
  forall c, denotes (d_vals m) c <-> denotes (d_vals m') c.
