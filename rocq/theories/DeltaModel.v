(** Model of ldaptor/delta.py, ModifyOp as an LDAP request and back. *)
From Verif Require Import Base Utf8Model DnModel EntryModel LdapModel.

(** delta.py 53, 73, 94: _LDAP_OP of Add, Delete, Replace *)
Definition ldap_op (k : kind) : Z := match k with MAdd => 0 | MDelete => 1 | MReplace => 2 end.

(** delta.py 19-44: Modification.asLDAP(). Python puts the octets of this object into the request;
    putting in the object gives the same octets. *)
Definition mod_as_ldap (m : delta) : res obj :=
  do key <- to_bytes (d_key m);
  do vals <- mapR to_bytes (d_vals m);
  Ok (OSeq KSeq (class_tag KSeq)
        [OInt KEnum (class_tag KEnum) (ldap_op (d_kind m));
         OSeq KSeq (class_tag KSeq)
           [OStr KOctet (class_tag KOctet) key; OSeq KSet (class_tag KSet) (map (OStr KOctet (class_tag KOctet)) vals)]]).

(** delta.py 141-145: ModifyOp.asLDAP(); the text of the DN is encoded when the request is (the
    model does it here) *)
Definition as_ldap (d : dn) (ms : list delta) : res obj :=
  do t <- utf8_encode (dn_text d);
  do l <- mapR mod_as_ldap ms;
  Ok (OModReq (class_tag KModReq) (VBytes t) l).

(** delta.py 147-152: _getClassFromOp *)
Definition class_of_op (op : pv) : option kind :=
  match op with
  | VInt z => if z =? 0 then Some MAdd else if z =? 1 then Some MDelete else if z =? 2 then Some MReplace else None
  | _ => None
  end.

(** The value of a key or value object. Only bytes: an integer sent in place of octets (hostile
    input) is reported as TypeError, which Python would raise later. *)
Definition bytes_value (o : obj) : res pyval :=
  do v <- value_of o; match v with VBytes b => Ok (PBytes b) | _ => Err EType end.

(** RuntimeError of fromLDAP *)
Definition ERuntime : exn := EUser 2.

(** delta.py 161-177: one step of the loop of fromLDAP *)
Definition mod_from_ldap (o : obj) : res delta :=
  do parts <- iter_of o;
  match parts with
  | [op; mods] =>
      do opv <- value_of op;
      match class_of_op opv with
      | None => Err ERuntime
      | Some k =>
          do kv <- iter_of mods;
          match kv with
          | [key; vals] =>
              do kb <- bytes_value key;
              do vs <- iter_of vals;
              do vbs <- mapR bytes_value vs;
              Ok (new_delta k kb vbs)
          | _ => Err EValue
          end
      end
  | _ => Err EValue
  end.

(** delta.py 154-178: ModifyOp.fromLDAP(request), __init__ (126-130) *)
Definition from_ldap (int_other : Z -> Z -> res Z) (o : obj) : res (dn * list delta) :=
  match o with
  | OModReq _ object mods =>
      do ms <- mapR mod_from_ldap mods;
      match object with
      | VBytes b => do s <- utf8_decode b; do d <- parse_dn int_other s; Ok (d, ms)
      | _ => Err EType
      end
  | _ => Err ERuntime
  end.
