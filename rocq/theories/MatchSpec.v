(** Specification side of matching. *)
From Verif Require Import Base Utf8Model DnModel EntryModel EntrySpec LdapSpec.

Section Spec.
  Variable lower : str -> str.

  (** The attribute description [a] (bytes) names the key [k]: equal without case. *)
  Definition names (a : bytes) (k : pyval) : Prop :=
    match k with
    | PBytes b => lower_bytes b = lower_bytes a
    | PStr s => exists t, utf8_decode a = Ok t /\ lower s = lower t
    end.
  (** The value [v] equals the octets [a], without case. *)
  Definition equals_ci (v : pyval) (a : bytes) : Prop :=
    match v with
    | PBytes b => lower_bytes b = lower_bytes a
    | PStr s => utf8_encode (lower s) = Ok (lower_bytes a)
    end.
  Definition valued (e : entry) (a : bytes) (P : pyval -> Prop) : Prop :=
    exists s v, In s (e_attrs e) /\ names a (s_key s) /\ In v (s_vals s) /\ P v.

  (** The boolean reading of a filter. *)
  Fixpoint sat (e : entry) (f : filter) : Prop :=
    match f with
    | FAnd l => (fix all l := match l with [] => True | g :: r => sat e g /\ all r end) l
    | FOr l => (fix any l := match l with [] => False | g :: r => sat e g \/ any r end) l
    | FNot g => ~ sat e g
    | FPresent a => exists s, In s (e_attrs e) /\ names a (s_key s)
    | FEq a v => valued e a (fun x => equals_ci x v)
    | FGe a v => valued e a (fun x => match x with PBytes b => bytes_leb v b = true | _ => False end)
    | FLe a v => valued e a (fun x => match x with PBytes b => bytes_leb b v = true | _ => False end)
    | _ => False
    end.

  (** UTF-8 octets. *)
  Definition utf8 (b : bytes) : Prop := exists s, utf8_decode b = Ok s.
  (** Filters built from and, or, not, presence and equality with UTF-8 names and values, and, when
      [ord] holds, orderings. *)
  Fixpoint plain (ord : Prop) (f : filter) : Prop :=
    match f with
    | FAnd l | FOr l => (fix all l := match l with [] => True | g :: r => plain ord g /\ all r end) l
    | FNot g => plain ord g
    | FPresent a => utf8 a
    | FEq a v => utf8 a /\ utf8 v
    | FGe a v | FLe a v => ord /\ utf8 a
    | _ => False
    end.

  (** Entries whose keys are all text or all bytes, convertible and different up to case. Values are
      not restricted. *)
  Definition keys_ok (kt : bool) (e : entry) : Prop :=
    Forall (fun a => typed kt (s_key a)) (e_attrs e) /\ NoDup (map (fun a => lowv lower (s_key a)) (e_attrs e)).
  Definition bytes_values (e : entry) : Prop :=
    Forall (fun a => Forall (fun v => exists b, v = PBytes b) (s_vals a)) (e_attrs e).
End Spec.

(** ** Substrings *)
Definition opt_list {A} (k : subkind) (o : option A) : list (subkind * A) := match o with Some x => [(k, x)] | None => [] end.
Definition oget (o : option bytes) : bytes := match o with Some x => x | None => [] end.
(** The parts of a substring filter: at most one initial, any number of middle, at most one final. *)
Definition parts_of (i : option bytes) (ms : list bytes) (f : option bytes) : list (subkind * bytes) :=
  opt_list SInitial i ++ map (fun m => (SAny, m)) ms ++ opt_list SFinal f.
(** [v] is the middle parts in this order, without overlap, with anything before, between and after. *)
Fixpoint in_order (ms : list bytes) (v : bytes) : Prop :=
  match ms with
  | [] => True
  | m :: r => exists p q, v = p ++ m ++ q /\ in_order r q
  end.
(** [v] has the shape of the filter: initial, then the middle parts, then final, nothing overlapping. *)
Definition shape (i : option bytes) (ms : list bytes) (f : option bytes) (v : bytes) : Prop :=
  exists mid, v = oget i ++ mid ++ oget f /\ in_order ms mid.

(** The same with overlaps allowed: each part may start inside the one before it. *)
Fixpoint in_order_overlapping (ms : list bytes) (v : bytes) : Prop :=
  match ms with
  | [] => True
  | m :: r => exists p q t, v = p ++ q /\ q = m ++ t /\ in_order_overlapping r q
  end.

(** A value with the shape of the filter, without case. *)
Definition has_shape (i : option bytes) (ms : list bytes) (f : option bytes) (v : pyval) : Prop :=
  match v with
  | PBytes b => shape (option_map lower_bytes i) (map lower_bytes ms) (option_map lower_bytes f) (lower_bytes b)
  | PStr _ => False
  end.
(** The code cuts off the end of the value as many octets as the first part of the filter has. When
    there is a final part, these say that this is not more than its length, and exactly its length. *)
Definition final_cut_within (i : option bytes) (ms : list bytes) (f : option bytes) : Prop :=
  match f with
  | None => True
  | Some p => 0 < match parts_of i ms f with (_, q) :: _ => zlen q | [] => 0 end <= zlen p
  end.
Definition final_cut_exact (i : option bytes) (ms : list bytes) (f : option bytes) : Prop :=
  match f with
  | None => True
  | Some p => 0 < match parts_of i ms f with (_, q) :: _ => zlen q | [] => 0 end /\
              match parts_of i ms f with (_, q) :: _ => zlen q | [] => 0 end = zlen p
  end.
