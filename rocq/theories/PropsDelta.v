(** C26: modify operations as LDAP requests and back. *)
From Verif Require Import Base BaseFacts Utf8Model DnModel DnSpec DnProofs EntryModel EntrySpec LdapModel LdapSpec LdapProofs
  DeltaModel DeltaSpec DeltaProofs PropsEntry.

(** A modify operation converted to a request, sent in a message with any id and controls, decoded
    and converted back, has the same DN and the same modifications in the same order: the same
    kinds, keys and values, all in bytes form, each value once. *)
Theorem C26_modify_roundtrip : forall int_other (d : dn) (ms : list delta) (id : Z) cs (o : obj) (w rest : bytes),
  dn_ok d -> as_ldap d ms = Ok o -> toWire (message_obj id o cs) = Ok w ->
  exists m, decode ctx_top (w ++ rest) = Ok (Some m, zlen w) /\ toWire m = Ok w /\
    exists tag op cs', m = OMessage tag (VInt id) op cs' /\
    exists ms', from_ldap int_other op = Ok (d, ms') /\ Forall2 same_mod ms ms'.
Proof. exact modify_roundtrip. Qed.
Print Assumptions C26_modify_roundtrip.
(** Its hypotheses are met; here the whole way for three modifications with text and bytes. *)
Definition c26_ms : list delta :=
  [mkDelta MAdd (sv "cn") [sv "x"; bv "y"]; mkDelta MDelete (bv "Mail") []; mkDelta MReplace (bv "sn") [PBytes [x00; xff]]].
Example C26_case : forall io, exists o w m,
  as_ldap c22_dn c26_ms = Ok o /\ toWire (message_obj 7 o None) = Ok w /\
  decode ctx_top w = Ok (Some m, zlen w) /\
  match m with
  | OMessage _ _ op _ => from_ldap io op =
      Ok (c22_dn, [mkDelta MAdd (bv "cn") [bv "x"; bv "y"]; mkDelta MDelete (bv "Mail") []; mkDelta MReplace (bv "sn") [PBytes [x00; xff]]])
  | _ => False
  end.
Proof. intros io. do 3 eexists. split; [vm_compute; reflexivity|]. split; [vm_compute; reflexivity|]. split; [vm_compute; reflexivity|vm_compute; reflexivity]. Qed.
