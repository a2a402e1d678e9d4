(** Specification for C85 and C86: what fetching the schema and asking for the naming context are to do,
    in terms of the responses that the server sends. *)
From Verif Require Import Base Utf8Model DnModel DnSpec EntryModel LdapModel LdapSpec SyntaxSpec SchemaModel SchemaSpec.

(** The search for one entry itself, any object class, at most [size] entries *)
Definition asks (size : Z) (b : bytes) (names : list bytes) : obj := request_obj (Search b 0 0 size 0 false (FPresent (B "objectClass")) names).
(** A final response that the search takes for success *)
Definition over (r : result) : Prop := (r_code r = 0 \/ r_code r = 4) /\ r_dn r = [].
(** The responses to one search, and what may come after it *)
Definition answers (rs : list response) (r : result) (extra : list obj) : list obj := map response_obj rs ++ response_obj (SearchDone r) :: extra.
(** The list has each of these once. *)
Definition lists {A} (l : list A) (P : A -> Prop) : Prop := NoDup l /\ forall x, In x l <-> P x.
(** A naming context that the server has announced *)
Definition announced (io : Z -> Z -> res Z) (rs : list response) (d : dn) : Prop :=
  exists n ats v t, In (SearchEntry n ats) rs /\ sent ats (B "namingcontexts") v /\ utf8_decode v = Ok t /\ parse_dn io t = Ok d.
