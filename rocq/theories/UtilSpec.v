(** Specification side of the small modules. *)
From Verif Require Import Base DnModel UtilModel.

(** The result codes of RFC 4511 section 4.1.9 *)
Definition rfc_code (c : Z) : Prop :=
  0 <= c <= 8 \/ 10 <= c <= 14 \/ 16 <= c <= 21 \/ 32 <= c <= 34 \/ c = 36 \/ 48 <= c <= 54 \/ 64 <= c <= 69 \/ c = 71 \/ c = 80.

(** The netmask of a prefix length: [n] ones and 32 - [n] zeros *)
Definition mask (n : Z) : Z := 2 ^ 32 - 2 ^ (32 - n).
(** int() refuses text with a dot. *)
Definition int_no_dot (io : str -> res Z) : Prop := forall s, In 46 s -> io s = Err EValue.

(** A number is the first free one above a used one, or the minimum itself. *)
Definition first_free (used : Z -> bool) (mn r : Z) : Prop :=
  used r = false /\ mn <= r /\ (r = mn \/ used (r - 1) = true).

(** The override of the nearest ancestor: of [skipn k d] for the least [k] that has one. *)
Definition nearest {V} (get : dn -> option V) (d : dn) (v : option V) : Prop :=
  match v with
  | Some v => exists k, (k <= length d)%nat /\ get (skipn k d) = Some v /\ forall j, (j < k)%nat -> get (skipn j d) = None
  | None => forall k, get (skipn k d) = None
  end.
