(** Specification side of distinguished names, independent of the escaping code. *)
From Verif Require Import Base DnModel.

(** A Python string has code points that are not negative. *)
Definition text (s : str) : Prop := Forall (fun c => 0 <= c) s.

(** [no_bare sep s]: [s] is a sequence of single characters other than backslash and [sep],
    and of pairs of a backslash and any character. *)
Inductive no_bare (sep : Z) : str -> Prop :=
| nb_nil : no_bare sep []
| nb_pair c s : no_bare sep s -> no_bare sep (92 :: c :: s)
| nb_char c s : c <> 92 -> c <> sep -> no_bare sep s -> no_bare sep (c :: s).

(** [s] does not begin with [c]; it does not end with an unescaped [c]. *)
Definition begins_not (c : Z) (s : str) : Prop := forall r, s <> c :: r.
Definition ends_not (c : Z) (s : str) : Prop := forall r, s = r ++ [c] -> exists r', r = r' ++ [92].

(** DNs that text can carry: attribute types are text without "=", values are text, and the DN
    is not the single empty RDN (whose text is that of the empty DN). *)
Definition atv_ok (a : atv) : Prop := text (a_type a) /\ ~ In 61 (a_type a) /\ text (a_value a).
Definition dn_ok (d : dn) : Prop := Forall (Forall atv_ok) d /\ d <> [[]].

(** int(s, 16) of two characters gives a number below 256. *)
Definition io_ok (io : Z -> Z -> res Z) : Prop := forall c d v, io c d = Ok v -> 0 <= v < 256.

(** Equality of DNs up to the case of types and values. *)
Definition same_atv (lower : str -> str) (a b : atv) : Prop :=
  lower (a_type a) = lower (a_type b) /\ lower (a_value a) = lower (a_value b).
Definition same_rdn lower : rdn -> rdn -> Prop := Forall2 (same_atv lower).
Definition same_dn lower : dn -> dn -> Prop := Forall2 (same_rdn lower).

(** [b] lies in the tree rooted at [a]: [b] is some RDNs followed by the RDNs of [a]. *)
Definition in_tree lower (a b : dn) : Prop := exists pre suf, b = pre ++ suf /\ same_dn lower a suf.

(** Case folding of ASCII letters, as one possible str.lower. *)
Definition ascii_lower (s : str) : str :=
  map (fun c => if (65 <=? c) && (c <=? 90) then c + 32 else c) s.

(** The domain name spelled by trailing single-valued dc RDNs. *)
Definition is_dc (upper : str -> str) (v : str) (r : rdn) : Prop :=
  exists a, r = [a] /\ upper (a_type a) = S_ "DC" /\ a_value a = v.
