(** Specification side of loading LDIF into memory. *)
From Verif Require Import Base Utf8Model DnModel DnSpec EntryModel EntrySpec InmemModel InmemSpec.

(** An entry of octets: every key and value is of type bytes, every attribute has a value, and no
    attribute is there twice (up to case). *)
Definition octets_only (lower : str -> str) (e : entry) : Prop :=
  (forall a, In a (e_attrs e) -> (exists k, s_key a = PBytes k) /\ s_vals a <> [] /\ forall v, In v (s_vals a) -> exists b, v = PBytes b) /\
  NoDup (map (fun a => lowv lower (s_key a)) (e_attrs e)).

Section Spec.
  Variable lower : str -> str.
  (** One of [es] has the DN [d]. *)
  Definition named (es : list entry) (d : dn) : Prop := exists e, In e es /\ same_dn lower (e_dn e) d.
  (** [e] has its parent among [es], and none of [es] has its name. *)
  Definition fits (es : list entry) (e : entry) : Prop :=
    (exists rd p, e_dn e = rd :: p /\ named es p) /\ ~ named es (e_dn e).
  (** Every entry after the first fits those before it. *)
  Definition in_order (es : list entry) : Prop :=
    forall before e after, es = before ++ e :: after -> before <> [] -> fits before e.
  (** The DNs are within the recursion limit, and the RDNs after the first entry's are in [C]. *)
  Definition rdns_ok (C : rdn -> Prop) (depth : nat) (es : list entry) : Prop :=
    (forall e, In e es -> (length (e_dn e) < depth)%nat) /\
    forall e rd p, In e (tl es) -> e_dn e = rd :: p -> C rd.
  (** The same attributes with the same values. *)
  Definition same_attrs (e e' : entry) : Prop :=
    (forall k, has lower e k <-> has lower e' k) /\ (forall k v, holds lower e k v <-> holds lower e' k v).
  (** The directory [h] is exactly the entries [es], by name. *)
  Definition holds_exactly (depth : nat) (h : heap) (es : list entry) : Prop :=
    (forall e, In e es -> exists r e', lookup lower depth h 0%nat (e_dn e) = Ok r /\ entry_at h r e' /\
        same_dn lower (e_dn e') (e_dn e) /\ same_attrs e' e) /\
    forall d, (length d < depth)%nat -> ~ named es d -> lookup lower depth h 0%nat d = Err (ELdap 32).
End Spec.
