(** Specification side of ldifdiff and ldifpatch. *)
From Verif Require Import Base Utf8Model DnModel DnSpec EntryModel EntrySpec LdifSpec InmemModel InmemSpec LoadSpec.

(** Octets that are the encoding of a text. *)
Definition texty (b : bytes) : Prop := exists s, utf8_decode b = Ok s.

Section Spec.
  Variable lower : str -> str.
  (** An entry of text: the DN can be written; names are of octets that a line of LDIF can carry,
      with no newline of any kind; names and values are texts. *)
  Definition plain_entry (e : entry) : Prop :=
    ldif_dn_ok (e_dn e) /\
    forall a, In a (e_attrs e) ->
      (forall k, s_key a = PBytes k -> texty k /\ name_ok k /\ without 13 k) /\ forall b, In (PBytes b) (s_vals a) -> texty b.
  (** No attribute is spelled in two ways in entries of the same name. *)
  Definition one_spelling (es fs : list entry) : Prop :=
    forall e f a b, In e es -> In f fs -> same_dn lower (e_dn e) (e_dn f) -> In a (e_attrs e) -> In b (e_attrs f) ->
      lowv lower (s_key a) = lowv lower (s_key b) -> s_key a = s_key b.
  (** The directory [h] has exactly the entries [es], by name, and each says the same. *)
  Definition is_directory (depth : nat) (h : heap) (es : list entry) : Prop :=
    (forall e, In e es -> exists r e', lookup lower depth h 0%nat (e_dn e) = Ok r /\ entry_at h r e' /\
        same_dn lower (e_dn e') (e_dn e) /\ forall k v, says e' k v <-> says e k v) /\
    forall d, (length d < depth)%nat -> ~ named lower es d -> lookup lower depth h 0%nat d = Err (ELdap 32).
End Spec.
