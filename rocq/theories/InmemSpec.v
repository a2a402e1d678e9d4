(** Specification side of the in-memory directory. *)
From Verif Require Import Base Utf8Model DnModel DnSpec EntryModel LdapSpec MatchModel InmemModel.

Definition attrs := list (pyval * list pyval).

(** ** Histories *)
(** Adding under the entry with a given DN, and deleting the entry with a given DN. *)
Inductive hop := HAdd (parent : dn) (rd : rdn) (a : attrs) | HDelete (d : dn).

Section Spec.
  Variable lower : str -> str.

  (** One request: look up from the root, then act (ldapserver.py 270-290, 293-300; the same calls
      in inmemory.py 141-147). *)
  Definition do_hop (depth : nat) (x : hop) (h : heap) : heap * res unit :=
    match x with
    | HAdd parent rd a =>
        match (do p <- lookup lower depth h 0%nat parent; add_child lower h p rd a) with
        | Ok (h', _) => (h', Ok tt)
        | Err e => (h, Err e)
        end
    | HDelete d =>
        match (do r <- lookup lower depth h 0%nat d; delete h r) with
        | Ok (h', _) => (h', Ok tt)
        | Err e => (h, Err e)
        end
    end.
  Fixpoint do_hops (depth : nat) (xs : list hop) (h : heap) : heap * list (res unit) :=
    match xs with
    | [] => (h, [])
    | x :: r => let (h1, o) := do_hop depth x h in let (h2, os) := do_hops depth r h1 in (h2, o :: os)
    end.
  Definition start (d : dn) (a : attrs) : heap := [mkNode (new_entry lower d a) None []].

  (** The directory as a map from DN to attributes: a list of pairs, looked up by DN equality. *)
  Definition dir := list (dn * attrs).
  Definition at_dn (d : dn) (x : dn * attrs) : bool := dn_eqb lower (fst x) d.
  Definition spec_hop (root : dn) (x : hop) (m : dir) : dir * res unit :=
    match x with
    | HAdd parent rd a =>
        match find (at_dn parent) m with
        | None => (m, Err (ELdap 32))
        | Some (p, _) =>
            if existsb (at_dn (rd :: p)) m then (m, Err (ELdap 68)) else (m ++ [(rd :: p, a)], Ok tt)
        end
    | HDelete d =>
        if negb (existsb (at_dn d) m) then (m, Err (ELdap 32))
        else if dn_eqb lower root d then (m, Err (ELdap 64))
        else if existsb (fun x => match fst x with _ :: p => dn_eqb lower p d | [] => false end) m
             then (m, Err (ELdap 66))
        else (List.filter (fun x => negb (at_dn d x)) m, Ok tt)
    end.
  Fixpoint spec_hops (root : dn) (xs : list hop) (m : dir) : dir * list (res unit) :=
    match xs with
    | [] => (m, [])
    | x :: r => let (m1, o) := spec_hop root x m in let (m2, os) := spec_hops root r m1 in (m2, o :: os)
    end.

  (** RDNs that are equal are spelled the same, and conversely. *)
  Definition consistent (C : rdn -> Prop) : Prop :=
    forall a b, C a -> C b -> (rdn_eqb lower a b = true <-> rdn_text a = rdn_text b).
  (** RDNs written in lower case: one such set of RDNs. *)
  Definition canonical (rd : rdn) : Prop :=
    Forall atv_ok rd /\ rd <> [] /\ Forall (fun a => lower (a_type a) = a_type a /\ lower (a_value a) = a_value a) rd.
  (** The RDN added is among [C], and the DN has fewer levels than Python's recursion limit. *)
  Definition hop_ok (C : rdn -> Prop) (depth : nat) (x : hop) : Prop :=
    match x with
    | HAdd parent rd _ => C rd /\ (length parent < depth)%nat
    | HDelete d => (length d < depth)%nat
    end.
End Spec.

(** ** Trees *)
Definition kids (h : heap) (r : ref) : list ref :=
  match nth_error h r with Some n => map snd (n_children n) | None => [] end.
(** [c] is [r] or below it, through the children dicts. *)
Inductive below (h : heap) : ref -> ref -> Prop :=
| below_refl r : below h r r
| below_step r x c : In x (kids h r) -> below h x c -> below h r c.
Definition in_scope (h : heap) (sc : scope) (r c : ref) : Prop :=
  match sc with ScBase => c = r | ScOne => In c (kids h r) | ScSub => below h r c end.

(** A tree: every reference in [L] has an entry, children are in [L], and a child's DN is an RDN in
    front of its parent's; every entry but the root is the child of exactly one entry. *)
Record tree (h : heap) (L : list ref) : Prop := {
  t_nodup : NoDup L;
  t_root : In 0%nat L;
  t_node : forall r, In r L -> exists n, nth_error h r = Some n;
  t_kids : forall r c, In r L -> In c (kids h r) -> In c L;
  t_dn : forall r c n m, In r L -> In c (kids h r) -> nth_error h r = Some n -> nth_error h c = Some m ->
         exists rd, n_dn m = rd :: n_dn n;
  t_nodup_kids : forall r, In r L -> NoDup (kids h r);
  t_one : forall a b c, In a L -> In b L -> In c (kids h a) -> In c (kids h b) -> a = b;
  t_up : forall c, In c L -> c <> 0%nat -> exists r, In r L /\ In c (kids h r) }.
(** The height of the tree is below [depth]: DNs are at most so much longer than the root's. *)
Definition shallow (h : heap) (L : list ref) (r : ref) (depth : nat) : Prop :=
  forall c n m, In c L -> nth_error h r = Some n -> nth_error h c = Some m ->
    (length (n_dn m) - length (n_dn n) < depth)%nat.

(** The entry at a reference; matching it does not fail. *)
Definition entry_at (h : heap) (c : ref) (e : entry) : Prop := exists n, nth_error h c = Some n /\ n_entry n = e.
Definition can_match (lower : str -> str) (h : heap) (f : filter) (c : ref) : Prop :=
  forall e, entry_at h c e -> exists b, matches lower e f = Ok b.
