(** Shared vocabulary of the model: bytes, text, exceptions as values.
    This file models no particular line of /repo; it fixes how Python values
    are represented. *)
From Coq Require Export Strings.Byte String NArith.
From Coq Require Export ZArith Bool Lia List.
From Coq Require Import ZifyBool ZifyNat ZifyN.
Export ListNotations.
Open Scope string_scope.
Open Scope list_scope.
Open Scope Z_scope.

(** Python bytes. *)
Definition bytes := list byte.
(** Python str: the list of its code points. *)
Definition str := list Z.

(** Python exceptions, as values. *)
Inductive exn :=
| EInsufficient                 (* pureber.BERExceptionInsufficientData *)
| EAssert                       (* AssertionError *)
| EIndex                        (* IndexError *)
| EKey                          (* KeyError *)
| EValue                        (* ValueError *)
| EType                         (* TypeError *)
| EUnicode                      (* UnicodeDecodeError / UnicodeEncodeError *)
| EAttr                         (* AttributeError *)
| ERecursion                    (* RecursionError *)
| EZeroDiv                      (* ZeroDivisionError *)
| EParse                        (* pyparsing.ParseException and friends *)
| EUser (tag : Z)               (* any other exception class, numbered where used *)
| ELdap (code : Z)              (* ldaperrors.LDAPException with this resultCode *)
| EFuel.                        (* not Python: the model ran out of fuel *)

Inductive res (A : Type) :=
| Ok (a : A)
| Err (e : exn).
Arguments Ok {A}.
Arguments Err {A}.

Definition bind {A B} (r : res A) (f : A -> res B) : res B :=
  match r with Ok a => f a | Err e => Err e end.

Notation "'do' x <- r ; k" := (bind r (fun x => k))
  (at level 200, x pattern, r at level 100, k at level 200).

Definition is_ok {A} (r : res A) : bool :=
  match r with Ok _ => true | Err _ => false end.

(** The number that a byte stands for, and the byte of a number modulo 256. *)
Definition b2z (b : byte) : Z := Z.of_N (Byte.to_N b).
Definition z2b (z : Z) : byte :=
  match Byte.of_N (Z.to_N (z mod 256)) with Some b => b | None => x00 end.

Definition beqb (a b : byte) : bool := b2z a =? b2z b.

Fixpoint bytes_eqb (a b : bytes) : bool :=
  match a, b with
  | [], [] => true
  | x :: a', y :: b' => beqb x y && bytes_eqb a' b'
  | _, _ => false
  end.

Fixpoint str_eqb (a b : str) : bool :=
  match a, b with
  | [], [] => true
  | x :: a', y :: b' => (x =? y) && str_eqb a' b'
  | _, _ => false
  end.

(** Literals: B "abc" is b"abc", S "abc" is "abc". *)
Definition B (s : String.string) : bytes := list_byte_of_string s.
Definition S_ (s : String.string) : str := map b2z (list_byte_of_string s).

(** bytes.lower(), which is ASCII only. *)
Definition lower_byte (b : byte) : byte :=
  if (65 <=? b2z b) && (b2z b <=? 90) then z2b (b2z b + 32) else b.
Definition lower_bytes (s : bytes) : bytes := map lower_byte s.

Definition zlen {A} (l : list A) : Z := Z.of_nat (length l).

(** Python slicing l[n:] and l[:n] for n >= 0. *)
Definition zdrop {A} (n : Z) (l : list A) : list A := skipn (Z.to_nat n) l.
Definition ztake {A} (n : Z) (l : list A) : list A := firstn (Z.to_nat n) l.

Fixpoint starts_with (p s : bytes) : bool :=
  match p, s with
  | [], _ => true
  | x :: p', y :: s' => beqb x y && starts_with p' s'
  | _ :: _, [] => false
  end.

Definition ends_with (p s : bytes) : bool := starts_with (rev p) (rev s).

(** bytes ordering (Python compares bytes lexicographically by value). *)
Fixpoint bytes_leb (a b : bytes) : bool :=
  match a, b with
  | [], _ => true
  | _ :: _, [] => false
  | x :: a', y :: b' =>
      if b2z x <? b2z y then true
      else if b2z y <? b2z x then false else bytes_leb a' b'
  end.

Fixpoint str_leb (a b : str) : bool :=
  match a, b with
  | [], _ => true
  | _ :: _, [] => false
  | x :: a', y :: b' =>
      if x <? y then true else if y <? x then false else str_leb a' b'
  end.

(** Keep arithmetic folded in goals. *)
#[global] Arguments Z.add : simpl never.
#[global] Arguments Z.sub : simpl never.
#[global] Arguments Z.mul : simpl never.
#[global] Arguments Z.lor : simpl never.
#[global] Arguments Z.land : simpl never.
#[global] Arguments Z.shiftl : simpl never.
#[global] Arguments Z.shiftr : simpl never.
#[global] Arguments Z.modulo : simpl never.
#[global] Arguments Z.div : simpl never.
#[global] Arguments Z.pow : simpl never.
#[global] Arguments b2z : simpl never.
#[global] Arguments z2b : simpl never.
#[global] Arguments zlen : simpl never.
#[global] Arguments zdrop : simpl never.
#[global] Arguments ztake : simpl never.
