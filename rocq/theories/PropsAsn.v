(** Property theorems for the octets of messages: C68. *)
From Verif Require Import BaseFacts BerModel BerSpec LdapModel LdapSpec AsnSpec AsnProofs.

(** C68. [encodes] and [asn_message] of AsnSpec transcribe X.690 and RFC 4511 and share nothing
    with the encoder. [seen_request] only turns present but empty SASL credentials into absent ones. *)
Theorem C68_request_octets :
  forall (id : Z) (r : request) (cs : option (list control)) (w : bytes),
  toWire (message_obj id (request_obj r) cs) = Ok w ->
  encodes (asn_message id (asn_request (seen_request r)) cs) w.
Proof. exact request_octets. Qed.
Print Assumptions C68_request_octets.
Theorem C68_response_octets :
  forall (id : Z) (r : response) (cs : option (list control)) (w : bytes),
  toWire (message_obj id (response_obj r) cs) = Ok w ->
  encodes (asn_message id (asn_response (seen_response r)) cs) w.
Proof. exact response_octets. Qed.
Print Assumptions C68_response_octets.
Theorem C68_filter_octets :
  forall (f : filter) (w : bytes), toWire (filter_obj f) = Ok w -> encodes (asn_filter f) w.
Proof. exact asn_filter_enc. Qed.
Print Assumptions C68_filter_octets.
Theorem C68_length_octets :
  forall (n : Z) (l : bytes), int2berlen n = Ok l -> length_octets n l.
Proof. exact int2berlen_octets. Qed.
Print Assumptions C68_length_octets.

Example C68_request_case :
  toWire (message_obj 5 (request_obj (Bind 3 (B "cn=a") (Simple (B "pw")))) None) =
  Ok (map z2b [48; 18; 2; 1; 5; 96; 13; 2; 1; 3; 4; 4; 99; 110; 61; 97; 128; 2; 112; 119]).
Proof. vm_compute. reflexivity. Qed.
Example C68_response_case :
  toWire (message_obj 5 (response_obj (ExtendedResponse (mkResult 0 [] []) (Some (B "1")) None)) None) =
  Ok (map z2b [48; 15; 2; 1; 5; 120; 10; 10; 1; 0; 4; 0; 4; 0; 138; 1; 49]).
Proof. vm_compute. reflexivity. Qed.
Example C68_filter_case :
  toWire (filter_obj (FNot (FExt (Some (B "2")) None (B "v") (Some true)))) =
  Ok (map z2b [162; 11; 169; 9; 129; 1; 50; 131; 1; 118; 132; 1; 255]).
Proof. vm_compute. reflexivity. Qed.
