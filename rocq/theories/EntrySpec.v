(** Specification side of attribute sets, entries and modifications. *)
From Verif Require Import Base Utf8Model DnModel EntryModel.

(** Two values, each text or bytes, denote the same octets. *)
Definition same_value (v w : pyval) : Prop := exists b, to_bytes v = Ok b /\ to_bytes w = Ok b.
(** A value that has both a text and a bytes form. *)
Definition convertible (v : pyval) : Prop :=
  match v with PStr s => exists b, utf8_encode s = Ok b | PBytes b => exists s, utf8_decode b = Ok s end.

(** Adding to and removing from a set of octet strings. *)
Inductive edit := EdAdd (v : pyval) | EdRemove (v : pyval).
Definition ed_value (x : edit) : pyval := match x with EdAdd v | EdRemove v => v end.

(** The octets denoted by the elements of a set. *)
Definition denotes (l : list pyval) (b : bytes) : Prop := exists v, In v l /\ to_bytes v = Ok b.
(** No two elements denote the same octets, and all denote some. *)
Definition one_form (l : list pyval) : Prop :=
  NoDup l /\ Forall convertible l /\ forall v w, In v l -> In w l -> same_value v w -> v = w.

(** Running edits: a failed remove leaves the set alone. *)
Definition run_edit (x : edit) (l : list pyval) : list pyval :=
  match (match x with EdAdd v => aset_add v l | EdRemove v => aset_remove v l end) with
  | Ok l' => l' | Err _ => l
  end.
Definition run_edits (xs : list edit) (l : list pyval) : list pyval := fold_left (fun l x => run_edit x l) xs l.
(** The octets that should be there after the edits. *)
Fixpoint spec_edits (xs : list edit) (P : bytes -> Prop) : bytes -> Prop :=
  match xs with
  | [] => P
  | EdAdd v :: r => spec_edits r (fun c => P c \/ to_bytes v = Ok c)
  | EdRemove v :: r => spec_edits r (fun c => P c /\ to_bytes v <> Ok c)
  end.

(** [t = true]: text with a bytes form; [t = false]: bytes with a text form. *)
Definition typed (t : bool) (v : pyval) : Prop :=
  match t, v with
  | true, PStr s => exists b, utf8_encode s = Ok b
  | false, PBytes b => exists s, utf8_decode b = Ok s
  | _, _ => False
  end.

Section Spec.
  Variable lower : str -> str.

  (** An entry whose keys are all of one type, whose values are all of one type, and which is
      well formed: no key twice (up to case), no value twice. *)
  Definition entry_ok (kt vt : bool) (e : entry) : Prop :=
    Forall (fun a => typed kt (s_key a) /\ Forall (typed vt) (s_vals a) /\ NoDup (s_vals a)) (e_attrs e) /\
    NoDup (map (fun a => lowv lower (s_key a)) (e_attrs e)).
  Definition delta_ok (kt vt : bool) (m : delta) : Prop :=
    typed kt (d_key m) /\ Forall (typed vt) (d_vals m) /\ NoDup (d_vals m).

  (** What an entry says: attribute present, and value held by an attribute. *)
  Definition has (e : entry) (k : pyval) : Prop :=
    exists a, In a (e_attrs e) /\ lowv lower (s_key a) = lowv lower k.
  Definition holds (e : entry) (k v : pyval) : Prop :=
    exists a, In a (e_attrs e) /\ lowv lower (s_key a) = lowv lower k /\ In v (s_vals a).

  (** The value-set semantics of modify: a directory entry as a map from attribute (in lower case)
      to a set of values. *)
  Definition amap := pyval -> option (pyval -> Prop).
  Definition represents (e : entry) (A : amap) : Prop :=
    forall k, match A (lowv lower k) with
              | None => ~ has e k
              | Some P => has e k /\ forall v, P v <-> holds e k v
              end.
  Definition upd (A : amap) (k : pyval) (x : option (pyval -> Prop)) : amap :=
    fun k' => if pyval_eqb (lowv lower k) k' then x else A k'.
  (** RFC 4511 section 4.6, except that an attribute may be left with no value, and adding a value
      that is there already is allowed. *)
  Inductive modifies : delta -> amap -> option amap -> Prop :=
  | mod_add k vs A : modifies (mkDelta MAdd k vs) A
      (Some (upd A k (Some (fun v => In v vs \/ exists P, A (lowv lower k) = Some P /\ P v))))
  | mod_delete_attr k A P : A (lowv lower k) = Some P ->
      modifies (mkDelta MDelete k []) A (Some (upd A k None))
  | mod_delete_values k vs A P : vs <> [] -> A (lowv lower k) = Some P -> Forall P vs ->
      modifies (mkDelta MDelete k vs) A (Some (upd A k (Some (fun v => P v /\ ~ In v vs))))
  | mod_delete_no_attr k vs A : A (lowv lower k) = None -> modifies (mkDelta MDelete k vs) A None
  | mod_delete_no_value k vs A P : A (lowv lower k) = Some P -> ~ Forall P vs ->
      modifies (mkDelta MDelete k vs) A None
  | mod_replace k vs A : vs <> [] ->
      modifies (mkDelta MReplace k vs) A (Some (upd A k (Some (fun v => In v vs))))
  | mod_replace_none k A : modifies (mkDelta MReplace k []) A (Some (upd A k None)).
  Inductive modifies_all : list delta -> amap -> option amap -> Prop :=
  | mods_nil A : modifies_all [] A (Some A)
  | mods_fail m ms A : modifies m A None -> modifies_all (m :: ms) A None
  | mods_step m ms A A' r : modifies m A (Some A') -> modifies_all ms A' r -> modifies_all (m :: ms) A r.
End Spec.
