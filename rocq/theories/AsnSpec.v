(** Independent specification of the octets of LDAP messages: the ASN.1 of RFC 4511 (appendix B)
    as trees, and their encoding by X.690 with definite lengths. *)
From Verif Require Import Base BerSpec LdapModel LdapSpec.

Inductive asn :=
| Prim (ident : Z) (content : bytes)
| Int (ident : Z) (z : Z)                  (* INTEGER or ENUMERATED content *)
| Cons (ident : Z) (l : list asn).

(** Tag classes. [Cons] adds the constructed bit. *)
Definition appl n := 0x40 + n.
Definition ctxt n := 0x80 + n.

(** X.690 8.1.3: definite lengths, in the shortest form. *)
Definition length_octets (n : Z) (l : bytes) : Prop :=
  (0 <= n < 128 /\ l = [z2b n]) \/
  (128 <= n /\ exists b r, l = z2b (128 + zlen (b :: r)) :: b :: r /\ zlen (b :: r) <= 127 /\
     b <> x00 /\ unsigned_value (b :: r) = n).

Inductive encodes : asn -> bytes -> Prop :=
| enc_prim i c l : length_octets (zlen c) l -> encodes (Prim i c) (z2b i :: l ++ c)
| enc_int i z c l : twos_value c = z -> shortest c -> length_octets (zlen c) l ->
    encodes (Int i z) (z2b i :: l ++ c)
| enc_cons i ts ws l : Forall2 encodes ts ws -> length_octets (zlen (concat ws)) l ->
    encodes (Cons i ts) (z2b (i + 0x20) :: l ++ concat ws).

Definition INTEGER := Int 2.
Definition ENUMERATED := Int 10.
Definition OCTETS := Prim 4.
Definition BOOLEAN_ i (b : bool) := Prim i [if b then xff else x00].
Definition BOOLEAN := BOOLEAN_ 1.
Definition SEQUENCE := Cons 16.
Definition SET_ := Cons 17.
Definition OPT {A} (f : A -> asn) (o : option A) : list asn :=
  match o with Some a => [f a] | None => [] end.

Fixpoint asn_filter (f : filter) : asn :=
  match f with
  | FAnd l => Cons (ctxt 0) (map asn_filter l)
  | FOr l => Cons (ctxt 1) (map asn_filter l)
  | FNot g => Cons (ctxt 2) [asn_filter g]
  | FEq a v => Cons (ctxt 3) [OCTETS a; OCTETS v]
  | FSubstr a l => Cons (ctxt 4) [OCTETS a; SEQUENCE (map (fun p =>
        match p with
        | (SInitial, v) => Prim (ctxt 0) v
        | (SAny, v) => Prim (ctxt 1) v
        | (SFinal, v) => Prim (ctxt 2) v
        end) l)]
  | FGe a v => Cons (ctxt 5) [OCTETS a; OCTETS v]
  | FLe a v => Cons (ctxt 6) [OCTETS a; OCTETS v]
  | FPresent a => Prim (ctxt 7) a
  | FApprox a v => Cons (ctxt 8) [OCTETS a; OCTETS v]
  | FExt r a v d =>
      Cons (ctxt 9) (OPT (Prim (ctxt 1)) r ++ OPT (Prim (ctxt 2)) a ++ [Prim (ctxt 3) v] ++
                     OPT (BOOLEAN_ (ctxt 4)) d)
  end.

Definition asn_attribute (a : bytes * list bytes) : asn :=
  SEQUENCE [OCTETS (fst a); SET_ (map OCTETS (snd a))].

Definition asn_request (r : request) : asn :=
  match r with
  | Bind v dn (Simple pw) => Cons (appl 0) [INTEGER v; OCTETS dn; Prim (ctxt 0) pw]
  | Bind v dn (Sasl m c) => Cons (appl 0) [INTEGER v; OCTETS dn; Cons (ctxt 3) (OCTETS m :: OPT OCTETS c)]
  | Unbind => Prim (appl 2) []
  | Search b sc de si ti ty f at_ =>
      Cons (appl 3) [OCTETS b; ENUMERATED sc; ENUMERATED de; INTEGER si; INTEGER ti; BOOLEAN ty;
                    asn_filter f; SEQUENCE (map OCTETS at_)]
  | Modify dn ms =>
      Cons (appl 6) [OCTETS dn; SEQUENCE (map (fun m =>
          SEQUENCE [ENUMERATED (m_op m); asn_attribute (m_attr m, m_values m)]) ms)]
  | AddReq dn ats => Cons (appl 8) [OCTETS dn; SEQUENCE (map asn_attribute ats)]
  | Delete dn => Prim (appl 10) dn
  | ModifyDN dn nr d ns => Cons (appl 12) ([OCTETS dn; OCTETS nr; BOOLEAN d] ++ OPT (Prim (ctxt 0)) ns)
  | Compare dn a v => Cons (appl 14) [OCTETS dn; SEQUENCE [OCTETS a; OCTETS v]]
  | Abandon i => Int (appl 16) i
  | Extended n v => Cons (appl 23) (Prim (ctxt 0) n :: OPT (Prim (ctxt 1)) v)
  end.

Definition asn_result (r : result) : list asn :=
  [ENUMERATED (r_code r); OCTETS (r_dn r); OCTETS (r_msg r)].

Definition asn_response (r : response) : asn :=
  match r with
  | BindResponse r c => Cons (appl 1) (asn_result r ++ OPT (Prim (ctxt 7)) c)
  | SearchEntry dn ats => Cons (appl 4) [OCTETS dn; SEQUENCE (map asn_attribute ats)]
  | SearchDone r => Cons (appl 5) (asn_result r)
  | SearchReference us => Cons (appl 19) (map OCTETS us)
  | ModifyResponse r => Cons (appl 7) (asn_result r)
  | AddResponse r => Cons (appl 9) (asn_result r)
  | DeleteResponse r => Cons (appl 11) (asn_result r)
  | ModifyDNResponse r => Cons (appl 13) (asn_result r)
  | CompareResponse r => Cons (appl 15) (asn_result r)
  | ExtendedResponse r n v =>
      Cons (appl 24) (asn_result r ++ OPT (Prim (ctxt 10)) n ++ OPT (Prim (ctxt 11)) v)
  end.

Definition asn_control (c : control) : asn :=
  SEQUENCE (OCTETS (c_oid c) :: OPT BOOLEAN (c_critical c) ++ OPT OCTETS (c_value c)).

Definition asn_message (id : Z) (op : asn) (cs : option (list control)) : asn :=
  SEQUENCE ([INTEGER id; op] ++ OPT (fun l => Cons (ctxt 0) (map asn_control l)) cs).
