(** Property theorems for distinguished names: C15 - C20. *)
From Verif Require Import BaseFacts DnModel DnSpec DnProofs.

(** C15: unescaping the escaped text gives the value back, also in front of other text; the escaped
    text has no unescaped separator, does not begin with a space or "#", and does not end with an
    unescaped one. *)
Theorem C15_escape_round_trip : forall (int_other : Z -> Z -> res Z) (s : str),
  text s -> unescape int_other (escape s) = Ok s.
Proof. exact unescape_escape. Qed.
Print Assumptions C15_escape_round_trip.
Theorem C15_escape_no_separator : forall (sep : Z) (s : str),
  In sep (S_ ",+=<>;""") -> text s -> no_bare sep (escape s).
Proof.
  intros sep s H. apply nb_escape. revert H. cbv. intuition congruence.
Qed.
Print Assumptions C15_escape_no_separator.
Theorem C15_escape_ends : forall (c : Z) (s : str),
  In c (S_ " #") -> text s -> begins_not c (escape s) /\ ends_not c (escape s).
Proof. intros c s H T. split; [exact (escape_begins c s H)|exact (escape_ends c s H T)]. Qed.
Print Assumptions C15_escape_ends.
Example C15_case : text (S_ " #a,b+c=""\ 0x#") /\ escape (S_ " ,a=\ ") = S_ "\ \,a\=\\\ "
  /\ escape [10; 97] = S_ "\0Aa" /\ ~ no_bare 44 (S_ "a,b").
Proof.
  repeat split; try (vm_compute; reflexivity).
  - repeat constructor; vm_compute; congruence.
  - intros H. inversion H as [| |c s A C D]; subst. inversion D as [| |c' s' A' C' D']; subst.
    vm_compute in C'. congruence.
Qed.

(** C16, for DNs whose attribute types contain no "=" (no attribute description does) and which
    are not the one-element list of the empty RDN. *)
Theorem C16_dn_text_round_trip_partial : forall (int_other : Z -> Z -> res Z) (d : dn),
  dn_ok d -> parse_dn int_other (dn_text d) = Ok d.
Proof. exact parse_dn_text. Qed.
Print Assumptions C16_dn_text_round_trip_partial.
(** Outside that, it is false: the type "a=b" with value "c" comes back as "a" with value "b=c". *)
Theorem C16_equals_in_type_refuted : exists d : dn, forall int_other,
  exists d', parse_dn int_other (dn_text d) = Ok d' /\ dn_eqb ascii_lower d d' = false.
Proof. exists [[mkAtv (S_ "a=b") (S_ "c")]]. intros io. eexists. split; vm_compute; reflexivity. Qed.
Print Assumptions C16_equals_in_type_refuted.
Definition c16_dn : dn :=
  [[mkAtv (S_ "cn") (S_ " Smith, J.+\#"); mkAtv (S_ "uid") []]; [];
   [mkAtv (S_ "dc") [233; 0; 10; 31]]].
Example C16_case : dn_ok c16_dn /\ dn_text c16_dn =
  S_ "cn=\ Smith\, J.\+\\\#+uid=,,dc=" ++ [233] ++ S_ "\00\0A\1F".
Proof.
  split; [|vm_compute; reflexivity]. split; [|discriminate].
  repeat constructor; try (vm_compute; congruence);
    (intros X; vm_compute in X; repeat destruct X as [X|X]; congruence).
Qed.

(** C17: any text that parses prints to a text that parses to the same DN (so printing again gives
    the same text). *)
Theorem C17_normalises : forall (int_other : Z -> Z -> res Z) (s : str) (d : dn),
  io_ok int_other -> text s -> parse_dn int_other s = Ok d ->
  parse_dn int_other (dn_text d) = Ok d /\ dn_ok d.
Proof. intros io s d A C D. split; [exact (dn_normalises io s d A C D)|exact (parse_dn_ok io s d A C D)]. Qed.
Print Assumptions C17_normalises.
Example C17_case : exists d, parse_dn (fun _ _ => Err EValue) (S_ "CN=a\2cb ,  dc=x+y=,") = Ok d /\
  dn_text d = S_ "CN=a\,b\ ,dc=x+y=," /\ io_ok (fun _ _ => Err EValue).
Proof. eexists. split; [vm_compute; reflexivity|]. split; [vm_compute; reflexivity|]. intros ? ? ? X. discriminate. Qed.

(** C18: equality is an equivalence, and it is exactly equality up to the case of types and values. *)
Theorem C18_equality : forall (lower : str -> str),
  (forall a b, dn_eqb lower a b = true <-> same_dn lower a b) /\
  (forall a, dn_eqb lower a a = true) /\
  (forall a b, dn_eqb lower a b = true -> dn_eqb lower b a = true) /\
  (forall a b c, dn_eqb lower a b = true -> dn_eqb lower b c = true -> dn_eqb lower a c = true).
Proof. intros lower. split; [exact (dn_eqb_spec lower)|exact (dn_eqb_equiv lower)]. Qed.
Print Assumptions C18_equality.
(** The hash part holds only for DNs that agree also in case: hash is a function of the text, and
    the text determines the DN. *)
Theorem C18_hash_partial : forall (hash : str -> Z) (a b : dn), dn_ok a -> dn_ok b ->
  (dn_text a = dn_text b <-> a = b) /\ (a = b -> dn_hash hash a = dn_hash hash b).
Proof.
  intros h a b A C. split; [split; [exact (dn_text_inj a b A C)|intros ->; reflexivity]|intros ->; reflexivity].
Qed.
Print Assumptions C18_hash_partial.
(** The full hash part is false: two equal DNs on which every collision-free hash differs. *)
Theorem C18_hash_refuted : exists a b : dn,
  dn_eqb ascii_lower a b = true /\
  forall hash, (forall s t, hash s = hash t -> s = t) -> dn_hash hash a <> dn_hash hash b.
Proof.
  exists [[mkAtv (S_ "cn") (S_ "x")]], [[mkAtv (S_ "CN") (S_ "x")]]. split; [vm_compute; reflexivity|].
  intros h H E. apply H in E. discriminate E.
Qed.
Print Assumptions C18_hash_refuted.
Theorem C18_rdn_hash_refuted : exists a b : rdn,
  rdn_eqb ascii_lower a b = true /\
  forall hp ht, (forall s t, hp s = hp t -> s = t) -> (forall s t, ht s = ht t -> s = t) ->
  rdn_hash hp ht a <> rdn_hash hp ht b.
Proof.
  exists [mkAtv (S_ "cn") (S_ "x")], [mkAtv (S_ "CN") (S_ "x")]. split; [vm_compute; reflexivity|].
  intros hp ht H1 H2 E. apply H2 in E. injection E as E. apply H1 in E. discriminate E.
Qed.
Print Assumptions C18_rdn_hash_refuted.
Example C18_case : dn_eqb ascii_lower [[mkAtv (S_ "cn") (S_ "x")]] [[mkAtv (S_ "CN") (S_ "X")]] = true /\
  dn_eqb ascii_lower [[mkAtv (S_ "cn") (S_ "x")]] [[mkAtv (S_ "cn") (S_ "y")]] = false.
Proof. split; vm_compute; reflexivity. Qed.

(** C19. *)
Theorem C19_contains : forall lower : str -> str,
  (forall a b, contains lower a b = true <-> in_tree lower a b) /\
  (forall a, contains lower a a = true) /\
  (forall a b c, contains lower a b = true -> contains lower b c = true -> contains lower a c = true) /\
  (forall a b, contains lower a b = true -> contains lower b a = true -> dn_eqb lower a b = true) /\
  (forall b, contains lower (dn_up b) b = true) /\ (forall b, contains lower [] b = true).
Proof. exact contains_order. Qed.
Print Assumptions C19_contains.
Definition c19_a : dn := [[mkAtv (S_ "dc") (S_ "com")]].
Definition c19_b : dn := [[mkAtv (S_ "dc") (S_ "example")]; [mkAtv (S_ "DC") (S_ "Com")]].
Example C19_case : contains ascii_lower c19_a c19_b = true /\ contains ascii_lower c19_b c19_a = false.
Proof. split; vm_compute; reflexivity. Qed.

(** C20, for RDNs and DNs: all four comparisons return, agree with each other, and exactly one of
    "<", "==" and ">" holds. *)
Theorem C20_rdn_comparison_partial : forall (lower : str -> str) (a b : rdn),
  rdn_ltb lower a b = rdn_gtb lower b a /\
  rdn_leb lower a b = (rdn_ltb lower a b || rdn_eqb lower a b) /\
  rdn_geb lower a b = (rdn_gtb lower a b || rdn_eqb lower a b) /\
  (rdn_eqb lower a b = true -> rdn_ltb lower a b = false /\ rdn_gtb lower a b = false) /\
  (rdn_eqb lower a b = false -> rdn_ltb lower a b = negb (rdn_gtb lower a b)).
Proof. exact rdn_order. Qed.
Print Assumptions C20_rdn_comparison_partial.
Theorem C20_dn_comparison_partial : forall (lower : str -> str) (a b : dn),
  dn_ltb lower a b = dn_gtb lower b a /\
  dn_leb lower a b = (dn_ltb lower a b || dn_eqb lower a b) /\
  dn_geb lower a b = (dn_gtb lower a b || dn_eqb lower a b) /\
  (dn_eqb lower a b = true -> dn_ltb lower a b = false /\ dn_gtb lower a b = false) /\
  (dn_eqb lower a b = false -> dn_ltb lower a b = negb (dn_gtb lower a b)).
Proof. exact dn_order. Qed.
Print Assumptions C20_dn_comparison_partial.
(** For attribute-value pairs it is false: ">" and "<=" on unequal pairs exhaust the stack at any
    recursion limit, *)
Theorem C20_atv_greater_refuted : forall (lower : str -> str) (depth : nat) (a b : atv),
  atv_eqb lower a b = false ->
  atv_gt lower depth a b = Err ERecursion /\ atv_le lower depth a b = Err ERecursion.
Proof.
  intros lower depth a b H. unfold atv_le.
  now rewrite (atv_gt_unequal lower depth a b H).
Qed.
Print Assumptions C20_atv_greater_refuted.
(** equal pairs can be "less", *)
Theorem C20_atv_less_refuted : exists a b : atv, atv_eqb ascii_lower a b = true /\ atv_ltb a b = true.
Proof. exists (mkAtv (S_ "CN") (S_ "x")), (mkAtv (S_ "cn") (S_ "x")). split; vm_compute; reflexivity. Qed.
Print Assumptions C20_atv_less_refuted.
(** and "<" on RDNs is not transitive. *)
Theorem C20_rdn_transitive_refuted : exists a b c : rdn,
  rdn_ltb ascii_lower a b = true /\ rdn_ltb ascii_lower b c = true /\ rdn_ltb ascii_lower a c = false.
Proof.
  exists [mkAtv (S_ "cn") (S_ "B")], [mkAtv (S_ "cn") (S_ "C")], [mkAtv (S_ "cn") (S_ "b")].
  repeat split; vm_compute; reflexivity.
Qed.
Print Assumptions C20_rdn_transitive_refuted.
Example C20_case : rdn_ltb ascii_lower [mkAtv (S_ "cn") (S_ "a")] [mkAtv (S_ "cn") (S_ "b")] = true /\
  atv_eqb ascii_lower (mkAtv (S_ "cn") (S_ "a")) (mkAtv (S_ "cn") (S_ "b")) = false.
Proof. split; vm_compute; reflexivity. Qed.

(** C67: getDomainName joins exactly the longest run of trailing single-valued dc RDNs. *)
Theorem C67_domain_name : forall (upper : str -> str) (d : dn),
  exists (pre dcs : list rdn) (vs : list str),
    d = pre ++ dcs /\ Forall2 (is_dc upper) vs dcs /\
    (forall pre' r v, pre = pre' ++ [r] -> ~ is_dc upper v r) /\
    getDomainName upper d = match vs with [] => None | _ => Some (join (S_ ".") vs) end.
Proof. exact domain_name_spec. Qed.
Print Assumptions C67_domain_name.
Example C67_case : getDomainName (fun s => map (fun c => if (97 <=? c) && (c <=? 122) then c - 32 else c) s)
  ([[mkAtv (S_ "cn") (S_ "x")]] ++ c19_b) = Some (S_ "example.Com").
Proof. vm_compute. reflexivity. Qed.
