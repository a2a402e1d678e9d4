(** Property theorems for LDAP messages: C09, C10, C11. *)
From Verif Require Import BaseFacts BerModel BerSpec BerProofs LdapModel LdapSpec LdapProofs.

(** C09, up to [seen_request], which changes only a SASL bind with present but empty credentials
    (see below): the encoding, followed by any bytes, decodes in the server's context to an object
    from which the same id, request and controls are read, exactly its bytes are consumed, and encoding the
    object again gives the same bytes. *)
Theorem C09_request_round_trip_partial :
  forall (id : Z) (r : request) (cs : option (list control)) (w rest : bytes),
  toWire (message_obj id (request_obj r) cs) = Ok w ->
  exists o, decode ctx_top (w ++ rest) = Ok (Some o, zlen w) /\
            read_message read_request o = Some (id, seen_request r, cs) /\ toWire o = Ok w.
Proof. exact request_message_roundtrip. Qed.
Print Assumptions C09_request_round_trip_partial.
Theorem C09_request_encodes :
  forall (id : Z) (r : request) (cs : option (list control)),
  obj_size (message_obj id (request_obj r) cs) < 256 ^ 127 ->
  exists w, toWire (message_obj id (request_obj r) cs) = Ok w.
Proof. exact request_encodes. Qed.
Print Assumptions C09_request_encodes.
(** The full statement is false: present but empty SASL credentials arrive as absent. *)
Theorem C09_request_round_trip_refuted :
  exists (id : Z) (r r' : request) (w : bytes) (o : obj),
  toWire (message_obj id (request_obj r) None) = Ok w /\
  decode ctx_top w = Ok (Some o, zlen w) /\
  read_message read_request o = Some (id, r', None) /\ r' <> r.
Proof.
  exists 1, (Bind 3 [] (Sasl (B "EXTERNAL") (Some []))), (Bind 3 [] (Sasl (B "EXTERNAL") None)).
  eexists. eexists. split; [vm_compute; reflexivity|].
  split; [vm_compute; reflexivity|]. split; [vm_compute; reflexivity|]. congruence.
Qed.
Print Assumptions C09_request_round_trip_refuted.
Definition c09_search : request :=
  Search (B "dc=example,dc=com") 2 0 10 0 true
    (FAnd [FEq (B "cn") (B "foo"); FNot (FPresent (B "sn"))]) [B "cn"; B "mail"].
Definition c09_controls := Some [mkControl (B "1.2.840.113556.1.4.319") (Some true) (Some (B "x"));
                                 mkControl (B "1.1") None None].
Example C09_case : exists w, toWire (message_obj 70000 (request_obj c09_search) c09_controls) = Ok w
  /\ exists o, decode ctx_top (w ++ [x30]) = Ok (Some o, zlen w)
  /\ read_message read_request o = Some (70000, c09_search, c09_controls).
Proof. eexists. split; [vm_compute; reflexivity|]. eexists. split; [vm_compute; reflexivity|]. vm_compute. reflexivity. Qed.
Example C09_case_seen : seen_request (Bind 3 (B "cn=x") (Sasl (B "PLAIN") (Some (B "c")))) =
  Bind 3 (B "cn=x") (Sasl (B "PLAIN") (Some (B "c"))) /\ seen_request c09_search = c09_search.
Proof. split; reflexivity. Qed.

(** C10, up to [seen_response], which changes only a bind response with present but empty SASL
    credentials. *)
Theorem C10_response_round_trip_partial :
  forall (id : Z) (r : response) (cs : option (list control)) (w rest : bytes),
  toWire (message_obj id (response_obj r) cs) = Ok w ->
  exists o, decode ctx_top (w ++ rest) = Ok (Some o, zlen w) /\
            read_message read_response o = Some (id, seen_response r, cs) /\ toWire o = Ok w.
Proof. exact response_message_roundtrip. Qed.
Print Assumptions C10_response_round_trip_partial.
Theorem C10_response_encodes :
  forall (id : Z) (r : response) (cs : option (list control)),
  obj_size (message_obj id (response_obj r) cs) < 256 ^ 127 ->
  exists w, toWire (message_obj id (response_obj r) cs) = Ok w.
Proof. exact response_encodes. Qed.
Print Assumptions C10_response_encodes.
Theorem C10_response_round_trip_refuted :
  exists (id : Z) (r r' : response) (w : bytes) (o : obj),
  toWire (message_obj id (response_obj r) None) = Ok w /\
  decode ctx_top w = Ok (Some o, zlen w) /\
  read_message read_response o = Some (id, r', None) /\ r' <> r.
Proof.
  exists 1, (BindResponse (mkResult 14 [] []) (Some [])), (BindResponse (mkResult 14 [] []) None).
  eexists. eexists. split; [vm_compute; reflexivity|].
  split; [vm_compute; reflexivity|]. split; [vm_compute; reflexivity|]. congruence.
Qed.
Print Assumptions C10_response_round_trip_refuted.
Definition c10_entry := SearchEntry (B "cn=a") [(B "cn", [B "a"; [xff; x00]]); (B "sn", [])].
Example C10_case : exists w, toWire (message_obj 5 (response_obj c10_entry) c09_controls) = Ok w
  /\ exists o, decode ctx_top (w ++ [x00]) = Ok (Some o, zlen w)
  /\ read_message read_response o = Some (5, c10_entry, c09_controls).
Proof. eexists. split; [vm_compute; reflexivity|]. eexists. split; [vm_compute; reflexivity|]. vm_compute. reflexivity. Qed.

(** C11. *)
Theorem C11_filter_round_trip : forall (f : filter) (w rest : bytes),
  toWire (filter_obj f) = Ok w ->
  exists o, decode ctx_search (w ++ rest) = Ok (Some o, zlen w) /\ read_filter o = Some f.
Proof. exact filter_roundtrip. Qed.
Print Assumptions C11_filter_round_trip.
Theorem C11_filter_encodes : forall f : filter,
  obj_size (filter_obj f) < 256 ^ 127 -> exists w, toWire (filter_obj f) = Ok w.
Proof. exact filter_encodes. Qed.
Print Assumptions C11_filter_encodes.
Definition c11_filter : filter :=
  FOr [FAnd []; FNot (FOr [FNot (FGe (B "a") (B "1"))]); FSubstr (B "cn") [(SInitial, B "x"); (SAny, []); (SFinal, B "y")];
       FExt (Some (B "2.5.13.2")) None (B "v") (Some false); FExt None (Some (B "ou")) (B "v") (Some true);
       FApprox (B "a") [xc3]; FLe (B "b") []].
Example C11_case : exists w, toWire (filter_obj c11_filter) = Ok w
  /\ exists o, decode ctx_search (w ++ [x00]) = Ok (Some o, zlen w) /\ read_filter o = Some c11_filter.
Proof. eexists. split; [vm_compute; reflexivity|]. eexists. split; [vm_compute; reflexivity|]. vm_compute. reflexivity. Qed.
