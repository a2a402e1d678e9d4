(** Model of how entries and operations are compared and hashed: ldaptor/delta.py 46-49, 205-217,
    245-262, 299-313, ldaptor/entry.py 249-253. Comparing entries is EntryModel.entry_eq, their LDIF
    and that of operations is in LdifModel, hash() of a DN is DnModel.dn_hash. Operands are of the same
    class; otherwise the methods give NotImplemented or False. *)
From Verif Require Import Base Utf8Model DnModel EntryModel UtilModel LdifModel.

Definition kind_eqb (a b : kind) : bool :=
  match a, b with MAdd, MAdd | MDelete, MDelete | MReplace, MReplace => true | _, _ => false end.
(** delta.py 46-49: Modification.__eq__: the same class, then attributeset.py 31-39 *)
Definition mod_eqb (a b : delta) : bool :=
  kind_eqb (d_kind a) (d_kind b) && pyval_eqb (d_key a) (d_key b) && set_eqb (d_vals a) (d_vals b).

Section Ops.
  Variable lower : str -> str.
  Variable oc_str_first : bool.
  (** hash() of text and of bytes *)
  Variable hash_str : str -> Z.
  Variable hash_bytes : bytes -> Z.

  (** delta.py 205-212: ModifyOp.__eq__ *)
  Definition modify_eq (d d' : dn) (ms ms' : list delta) : bool :=
    if negb (dn_eqb lower d d') then false
    else if negb (list_eqb mod_eqb ms ms') then false else true.
  (** delta.py 214-217: ModifyOp.__hash__ *)
  Definition modify_hash (d : dn) (ms : list delta) : res Z :=
    do t <- modify_asLDIF d ms; Ok (hash_bytes t).
  (** delta.py 245-250: AddOp.__eq__ *)
  Definition add_eq (e e' : entry) : res bool := entry_eq lower e e'.
  (** delta.py 255-258: AddOp.__hash__ *)
  Definition add_hash (e : entry) : res Z :=
    do t <- add_asLDIF lower oc_str_first e; Ok (hash_bytes t).
  (** delta.py 299-304: DeleteOp.__eq__, 309-310: DeleteOp.__hash__ *)
  Definition delete_eq (d d' : dn) : bool := dn_eqb lower d d'.
  Definition delete_hash (d : dn) : Z := dn_hash hash_str d.
  (** entry.py 249-253: BaseLDAPEntry.__hash__ *)
  Definition entry_hash (e : entry) : Z := dn_hash hash_str (e_dn e).
End Ops.
