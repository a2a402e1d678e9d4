(** Specification of framing: elements of a byte stream. *)
From Verif Require Import Base BerModel LdapModel LdapSpec StreamModel.

(** [w] is one complete BER element with identifier [i] (without the structured bit). *)
Definition element (i : Z) (w : bytes) : Prop := exists content, berHeader w = Ok (i, content, zlen w).

(** Every complete top-level element of the stream is a SEQUENCE, as RFC 4511 requires of a peer. *)
Definition only_messages (stream : bytes) : Prop :=
  forall (els : list bytes) (w rest : bytes) (i : Z),
  Forall (fun e => exists j, element j e) els -> element i w ->
  stream = concat els ++ w ++ rest -> i = 0x10.

(** What an observer reads off the handled objects. *)
Definition requests_read (l : list obj) := map (read_message read_request) l.
Definition responses_read (l : list obj) := map (read_message read_response) l.
