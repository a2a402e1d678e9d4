(** Independent specification of BER integers (ITU-T X.690 8.3) and lengths. *)
From Verif Require Import Base.

(** The number that octets denote, most significant first. *)
Fixpoint unsigned_acc (acc : Z) (w : bytes) : Z :=
  match w with
  | [] => acc
  | b :: r => unsigned_acc (256 * acc + b2z b) r
  end.
Definition unsigned_value (w : bytes) : Z := unsigned_acc 0 w.

(** Two's complement value: the first bit counts negatively. *)
Definition twos_value (w : bytes) : Z :=
  match w with
  | [] => 0
  | b :: _ =>
      if 128 <=? b2z b then unsigned_value w - 256 ^ zlen w else unsigned_value w
  end.

(** Shortest form: the first nine bits are not all equal. *)
Definition shortest (w : bytes) : Prop :=
  match w with
  | [] => False
  | b0 :: b1 :: _ =>
      ~ (b2z b0 = 0 /\ b2z b1 < 128) /\ ~ (b2z b0 = 255 /\ 128 <= b2z b1)
  | _ => True
  end.

(** [p] is a proper prefix of [w]. *)
Definition proper_prefix (p w : bytes) : Prop := exists t, t <> [] /\ w = p ++ t.
