(** Specification side of LDIF, independent of the writer and of the parser. *)
From Verif Require Import Base Utf8Model DnModel DnSpec EntryModel EntrySpec.

(** What an entry says, in octets: attribute [k] (up to the case of ASCII letters) has value [v]. *)
Definition says (e : entry) (k v : bytes) : Prop :=
  exists a k', In a (e_attrs e) /\ to_bytes (s_key a) = Ok k' /\ lower_bytes k' = lower_bytes k /\ denotes (s_vals a) v.

(** Two entries with the same DN and the same values of every attribute. *)
Definition same_entry (e e' : entry) : Prop := e_dn e' = e_dn e /\ forall k v, says e' k v <-> says e k v.

(** [s] does not contain the octet [c]; it does not begin with it. *)
Definition without (c : Z) (s : bytes) : Prop := forall b, In b s -> b2z b <> c.
Definition not_first (c : Z) (s : bytes) : Prop := forall b r, s = b :: r -> b2z b <> c.

(** Attribute names that a line of LDIF can carry: no newline, no colon, and no space or "#" in
    front (every attribute description of RFC 4512 is of this kind). *)
Definition name_ok (k : bytes) : Prop := without 10 k /\ without 58 k /\ not_first 32 k /\ not_first 35 k.

(** Values that can be written: all octets (any), or all text that has an encoding. *)
Definition values_ok (vs : list pyval) : Prop :=
  (forall v, In v vs -> exists b, v = PBytes b) \/ (forall v, In v vs -> exists s b, v = PStr s /\ utf8_encode s = Ok b).

(** No line is longer than the limit of LineReceiver: nothing of more than 16384 octets without a
    newline in it. *)
Definition short_lines (t : bytes) : Prop := forall a l b, t = a ++ l ++ b -> without 10 l -> zlen l <= 16384.

(** Text that has an encoding: Unicode scalar values. *)
Definition scalar (s : str) : Prop := Forall (fun c => 0 <= c < 0xD800 \/ 0xE000 <= c < 0x110000) s.
(** DNs that text can carry (types without "=", not the single empty RDN) and that can be encoded. *)
Definition ldif_dn_ok (d : dn) : Prop :=
  Forall (Forall (fun a => scalar (a_type a) /\ ~ In 61 (a_type a) /\ scalar (a_value a))) d /\ d <> [[]].

Section Spec.
  Variable lower : str -> str.
  (** str.lower() recognises "objectClass" by its ASCII letters only *)
  Definition lower_oc : Prop :=
    (forall s, lower s = S_ "objectclass" <-> ascii_lower s = S_ "objectclass").
  Definition ldif_attrs_ok (e : entry) : Prop :=
    NoDup (map (fun a => lowv lower (s_key a)) (e_attrs e)) /\
    forall a, In a (e_attrs e) ->
      convertible (s_key a) /\ (forall k, to_bytes (s_key a) = Ok k -> name_ok k) /\ values_ok (s_vals a).
  Definition ldif_entry_ok (e : entry) : Prop := ldif_dn_ok (e_dn e) /\ ldif_attrs_ok e.
End Spec.

(** One fold: in the text, the line [a ++ b] becomes [a], and [b] on a line of its own after a space. *)
Inductive fold1 : bytes -> bytes -> Prop :=
| fold_line pre a b post :
    pre = [] \/ (exists p, pre = p ++ [z2b 10]) -> a <> [] -> without 10 a -> without 10 b -> zlen (a ++ b) <= 16384 ->
    fold1 (pre ++ a ++ b ++ [z2b 10] ++ post) (pre ++ a ++ [z2b 10; z2b 32] ++ b ++ [z2b 10] ++ post).
Inductive folds : bytes -> bytes -> Prop :=
| folds_none t : folds t t
| folds_step t u v : fold1 t u -> folds u v -> folds t v.

(** A modification whose key and values can be written. *)
Definition ldif_delta_ok (m : delta) : Prop :=
  (exists k, to_bytes (d_key m) = Ok k /\ name_ok k) /\ values_ok (d_vals m).

(** The lines of a text that ends with a newline, or the last of them cut. *)
Definition no_blank (t : bytes) : Prop := not_first 10 t /\ forall a b, t <> a ++ [z2b 10; z2b 10] ++ b.
