(** Specification side of tree differences. *)
From Verif Require Import Base Utf8Model DnModel DnSpec EntryModel EntrySpec LdapSpec MatchModel InmemModel InmemSpec SyntaxSpec.

Section Spec.
  Variable lower : str -> str.

  (** Two entries with equal DNs that say the same. *)
  Definition alike (e f : entry) : Prop :=
    same_dn lower (e_dn e) (e_dn f) /\ forall k v, holds lower e k v <-> holds lower f k v.
  (** Equal in the sense of BaseLDAPEntry.__eq__. *)
  Definition equal (e f : entry) : Prop := alike e f /\ entry_eq lower e f = Ok true.

  (** [e] is an entry of the part of the tree below [r]. *)
  Definition entry_below (h : heap) (r : ref) (e : entry) : Prop := exists c, below h r c /\ entry_at h c e.
  (** The entries below [r] in [h] and those below [r'] in [h'] correspond, up to [R]. *)
  Definition same_entries (R : entry -> entry -> Prop) (h : heap) (r : ref) (h' : heap) (r' : ref) : Prop :=
    (forall e, entry_below h r e -> exists e', entry_below h' r' e' /\ R e e') /\
    (forall e', entry_below h' r' e' -> exists e, entry_below h r e /\ R e e').

  (** What is asked of two entries with the same DN, the first to become like the second: one type of
      name and one type of value, and no attribute spelled differently. *)
  Definition comparable (e f : entry) : Prop :=
    exists kt vt, entry_ok lower kt vt e /\ entry_ok lower kt vt f /\
      forall k k', In k (keys_of e) -> In k' (keys_of f) -> lowv lower k = lowv lower k' -> k = k'.
  (** What is asked of an entry to be copied. *)
  Definition copyable (e : entry) : Prop := exists kt vt, ent_ok lower kt vt e.
  (** Every attribute has a value, and objectClass is spelled so. *)
  Definition proper (e : entry) : Prop :=
    forall a, In a (e_attrs e) -> s_vals a <> [] /\
      (lowv lower (s_key a) = lowv lower (PStr (S_ "objectClass")) -> s_key a = PStr (S_ "objectClass")) /\
      (lowv lower (s_key a) = lowv lower (PBytes (B "objectClass")) -> s_key a = PBytes (B "objectClass")).
End Spec.
