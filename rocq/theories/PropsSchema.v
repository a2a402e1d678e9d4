(** Schema descriptions: properties C65 and C79 (ldaptor/schema.py). *)
From Verif Require Import Base BaseFacts SchemaModel SchemaSpec SchemaProofs.

(** ** C65: schema descriptions round trip *)
(** Every text that the grammar allows for a description is read as that description. *)
Theorem C65_read_object_class d t : ocd_text d t -> parse_ocd t = Ok d.
Proof. exact (parse_ocd_text d t). Qed.
Print Assumptions C65_read_object_class.
Theorem C65_read_attribute_type d t : atd_text d t -> parse_atd t = Ok d.
Proof. exact (parse_atd_text d t). Qed.
Print Assumptions C65_read_attribute_type.
Theorem C65_read_syntax d t : syd_text d t -> parse_syd t = Ok d.
Proof. exact (parse_syd_text d t). Qed.
Print Assumptions C65_read_syntax.
Theorem C65_read_matching_rule d t : mrd_text d t -> parse_mrd t = Ok d.
Proof. exact (parse_mrd_text d t). Qed.
Print Assumptions C65_read_matching_rule.

(** The text of a description is one that the grammar allows for it, and reading it gives the description
    back. Of object classes, the ones with one superior in parentheses are left out: see the refutation. *)
Theorem C65_object_class_partial d : ocd_ok d -> ocd_text d (print_ocd d) /\ parse_ocd (print_ocd d) = Ok d.
Proof. intros H. split; [exact (print_ocd_text d H)|exact (parse_ocd_text d _ (print_ocd_text d H))]. Qed.
Print Assumptions C65_object_class_partial.
Theorem C65_attribute_type d : atd_ok d -> atd_text d (print_atd d) /\ parse_atd (print_atd d) = Ok d.
Proof. intros H. split; [exact (print_atd_text d H)|exact (parse_atd_text d _ (print_atd_text d H))]. Qed.
Print Assumptions C65_attribute_type.
Theorem C65_syntax d : syd_ok d -> syd_text d (print_syd d) /\ parse_syd (print_syd d) = Ok d.
Proof. intros H. split; [exact (print_syd_text d H)|exact (parse_syd_text d _ (print_syd_text d H))]. Qed.
Print Assumptions C65_syntax.
Theorem C65_matching_rule d : mrd_ok d -> mrd_text d (print_mrd d) /\ parse_mrd (print_mrd d) = Ok d.
Proof. intros H. split; [exact (print_mrd_text d H)|exact (parse_mrd_text d _ (print_mrd_text d H))]. Qed.
Print Assumptions C65_matching_rule.

(** What was read from any text at all, in the grammar or not, and then written, is read as the same again. *)
Theorem C65_again_object_class_partial t d : parse_ocd t = Ok d -> sup_ok (o_sup d) -> oids_ok (o_must d) -> oids_ok (o_may d) ->
  parse_ocd (print_ocd d) = Ok d.
Proof. intros H S M1 M2. exact (parse_ocd_text d _ (print_ocd_text d (parsed_ocd t d H S M1 M2))). Qed.
Print Assumptions C65_again_object_class_partial.
Theorem C65_again_attribute_type_partial t d : parse_atd t = Ok d -> words_there d -> parse_atd (print_atd d) = Ok d.
Proof. intros H W. exact (parse_atd_text d _ (print_atd_text d (parsed_atd t d H W))). Qed.
Print Assumptions C65_again_attribute_type_partial.
Theorem C65_again_syntax t d : parse_syd t = Ok d -> parse_syd (print_syd d) = Ok d.
Proof. intros H. exact (parse_syd_text d _ (print_syd_text d (parsed_syd t d H))). Qed.
Print Assumptions C65_again_syntax.
Theorem C65_again_matching_rule_partial t d : parse_mrd t = Ok d -> m_name d <> Some [] -> parse_mrd (print_mrd d) = Ok d.
Proof. intros H N. exact (parse_mrd_text d _ (print_mrd_text d (parsed_mrd t d H N))). Qed.
Print Assumptions C65_again_matching_rule_partial.

(** An object class whose one superior stands in parentheses, as the grammar allows, is not equal to what
    its own text is read as. *)
Theorem C65_one_superior_refuted : exists t d d', ocd_text d t /\ parse_ocd t = Ok d /\ parse_ocd (print_ocd d) = Ok d' /\ ocd_eqb d d' = false.
Proof.
  exists (B "( 1.2 SUP ( top ) )"), (mkOcd (B "1.2") None None false (SupTuple [B "top"]) (B "STRUCTURAL") [] []), (mkOcd (B "1.2") None None false (SupList [B "top"]) (B "STRUCTURAL") [] []).
  split; [|split; [|split]]; [|vm_compute; reflexivity..].
  exists (B " "), [], [], [], (B " SUP ( top )"), [], [], [], (B " "). split; [apply sp1|]. split; [apply sp1|]. split; [now apply oid_check_iff|]. split; [discriminate|]. split; [reflexivity|]. split; [reflexivity|]. split; [reflexivity|]. split; [reflexivity|].
  split; [|split; [now right|split; reflexivity]]. exists (B " "), (B " "), (B "( top )"). split; [apply sp1|]. split; [apply sp1|]. split; [|reflexivity]. exists (B " "), (B "top" ++ B " "). split; [apply sp1|]. split; [|reflexivity]. constructor; [|apply sp1].
  split; [now apply kw_word|]. split; repeat constructor; discriminate.
Qed.
Print Assumptions C65_one_superior_refuted.
(** Texts outside the grammar that are read, although what is read is not what is written: SUP with nothing
    after it, one item with a space in parentheses, and no names in parentheses. *)
Theorem C65_lenient_refuted :
  (exists t d d', parse_ocd t = Ok d /\ parse_ocd (print_ocd d) = Ok d' /\ sup_items (o_sup d) <> sup_items (o_sup d')) /\
  (exists t d e, parse_ocd t = Ok d /\ parse_ocd (print_ocd d) = Err e) /\
  (exists t d e, parse_mrd t = Ok d /\ parse_mrd (print_mrd d) = Err e).
Proof.
  split; [|split].
  - exists (B "( 1.2 SUP )"), (mkOcd (B "1.2") None None false (SupList [[]]) (B "STRUCTURAL") [] []), (mkOcd (B "1.2") None None false (SupList [B "STRUCTURAL"]) (B "STRUCTURAL") [] []).
    split; [vm_compute; reflexivity|]. split; [vm_compute; reflexivity|discriminate].
  - exists (B "( 1.2 MUST ( a b ) )"), (mkOcd (B "1.2") None None false (SupList []) (B "STRUCTURAL") [B "a b"] []), EAssert. split; vm_compute; reflexivity.
  - exists (B "( 1.2 NAME ( ) SYNTAX 1.3 )"), (mkMrd (B "1.2") (Some []) None false (B "1.3")), EAssert. split; vm_compute; reflexivity.
Qed.
Print Assumptions C65_lenient_refuted.

(** Cases that meet the hypotheses: descriptions with most of the fields, their text, and untidy text in the grammar. *)
Definition ex_ocd : ocd := mkOcd (B "2.5.6.6") (Some [B "person"; B "human"]) (Some (B "a (living) one")) true (SupTuple [B "top"; B "other"]) (B "AUXILIARY") [B "sn"; B "cn"] [B "seeAlso"].
Definition ex_atd : atd := mkAtd (B "2.5.4.3") (Some [B "cn"; B "commonName"]) (Some (B "")) false (Some (B "name")) (Some (B "caseIgnoreMatch")) None None (Some (B "1.3.6{64}")) true false true
  (Some (B "dSAOperation")) [(B "X-ORIGIN", XStr (B "RFC")); (B "X-NONE", XTuple []); (B "X-TWO", XTuple [B "a"; B "b"])].
Lemma no_b c s : forallb (fun b => negb (b2z b =? c)) s = true -> no c s.
Proof. rewrite forallb_forall. intros H. apply Forall_forall. intros b I E. specialize (H b I). rewrite E, Z.eqb_refl in H. discriminate. Qed.
Lemma listed_b w : (negb (bytes_eqb w []) && forallb (fun b => negb (space b)) w) && (forallb (fun b => negb (b2z b =? 36)) w && forallb (fun b => negb (b2z b =? 41)) w) = true -> listed w.
Proof. intros H. apply andb_prop in H as (H1 & H2). apply andb_prop in H2 as (H2 & H3). split; [now apply kw_word|]. split; now apply no_b. Qed.
Lemma lone_b w : (negb (bytes_eqb w []) && forallb (fun b => negb (space b)) w) && negb (is_at 40 w) = true -> lone w.
Proof. intros H. apply andb_prop in H as (H1 & H2). split; [now apply kw_word|]. intros b r -> E. cbn [is_at] in H2. now rewrite E in H2. Qed.
Example C65_object_class_case : ocd_ok ex_ocd /\ parse_ocd (print_ocd ex_ocd) = Ok ex_ocd /\
  parse_ocd (B "(2.5.6.6 NAME('person'   'human')DESC 'a (living) one' )") = Err EAssert /\
  parse_ocd (B "(2.5.6.6 NAME ('person'   'human')DESC  'a (living) one' OBSOLETE SUP (top$other) AUXILIARY MUST ( sn$ cn ) MAY seeAlso)") = Ok ex_ocd.
Proof.
  split; [|split; [|split]; vm_compute; reflexivity].
  split; [now apply oid_check_iff|]. split; [repeat (apply Forall_cons; [split; now apply no_b|]); apply Forall_nil|]. split; [now apply no_b|].
  split; [split; [|exact I]; repeat (apply Forall_cons; [now apply listed_b|]); apply Forall_nil|]. split; [cbn; auto|]. split; [repeat (apply Forall_cons; [now apply listed_b|]); apply Forall_nil|now apply lone_b].
Qed.
Example C65_attribute_type_case : atd_ok ex_atd /\ parse_atd (print_atd ex_atd) = Ok ex_atd.
Proof.
  split; [|vm_compute; reflexivity]. split; [now apply oid_check_iff|]. split; [repeat (apply Forall_cons; [split; now apply no_b|]); apply Forall_nil|]. split; [now apply no_b|].
  split; [repeat (apply Forall_cons; [first [exact I|now apply kw_word]|]); apply Forall_nil|]. split; [intros u [= <-]; cbn; auto|].
  repeat (apply Forall_cons; [split; [now apply kw_word|split; [reflexivity|]]|]); [now apply no_b|apply Forall_nil|repeat (apply Forall_cons; [split; now apply no_b|]); apply Forall_nil|apply Forall_nil].
Qed.
Example C65_other_case :
  (exists d, parse_syd (B "( 1.3.6.1.4 DESC 'Audio' X-NOT-HUMAN-READABLE 'TRUE' )") = Ok d /\ y_human d = false /\ syd_ok d) /\
  (exists d, parse_mrd (B "( 2.5.13.2 NAME 'caseIgnoreMatch' OBSOLETE SYNTAX 1.3.6 )") = Ok d /\ mrd_ok d).
Proof.
  split.
  - exists (mkSyd (B "1.3.6.1.4") (Some (B "Audio")) false false). split; [vm_compute; reflexivity|]. split; [reflexivity|]. split; [now apply oid_check_iff|now apply no_b].
  - exists (mkMrd (B "2.5.13.2") (Some [B "caseIgnoreMatch"]) None true (B "1.3.6")). split; [vm_compute; reflexivity|]. split; [now apply oid_check_iff|]. split; [now apply no_b|]. split; [exact I|now apply kw_word].
Qed.

(** ** C79: order of object classes *)
(** Equality is equality of all the fields. *)
Theorem C79_equal a b : ocd_eqb a b = true <-> a = b.
Proof. exact (ocd_eqb_iff a b). Qed.
Print Assumptions C79_equal.
(** Descriptions with names are in the order of their first names in capitals, and neither is less only if these are the same. *)
Theorem C79_named_partial a b ka kb : named_as a ka -> named_as b kb ->
  exists l g, ocd_lt a b = Ok l /\ ocd_gt a b = Ok g /\ ocd_lt b a = Ok g /\ (l = true <-> before ka kb) /\ (g = true <-> before kb ka) /\ (l = false /\ g = false <-> ka = kb).
Proof.
  intros Ha Hb. destruct (lt_key a b ka kb Ha Hb) as (E1 & E2). destruct (lt_key b a kb ka Hb Ha) as (E3 & _). exists (bytes_ltb ka kb), (bytes_ltb kb ka). repeat (split; [assumption || apply ltb_before|]).
  split; [intros (A1 & A2); now apply ltb_tie|intros ->; now rewrite ltb_irrefl].
Qed.
Print Assumptions C79_named_partial.
(** <= and >= hold between equal descriptions, and otherwise as the names say. *)
Theorem C79_le_partial a b ka kb : named_as a ka -> named_as b kb ->
  exists l g, ocd_le a b = Ok l /\ ocd_ge a b = Ok g /\ (l = true <-> a = b \/ before ka kb) /\ (g = true <-> a = b \/ before kb ka).
Proof.
  intros Ha Hb. destruct (C79_named_partial a b ka kb Ha Hb) as (l & g & L & G & _ & HL & HG & _). unfold ocd_le, ocd_ge. rewrite L, G. destruct (ocd_eqb a b) eqn:E.
  - apply ocd_eqb_iff in E. exists true, true. intuition.
  - assert (N : a <> b) by (rewrite <- ocd_eqb_iff; congruence). exists l, g. intuition.
Qed.
Print Assumptions C79_le_partial.
(** The order of names is one: nothing is before itself, and before what comes after it. *)
Theorem C79_before a b c : ~ before a a /\ (before a b -> before b c -> before a c).
Proof. rewrite <- !ltb_before. rewrite ltb_irrefl. split; [discriminate|apply ltb_trans]. Qed.
Print Assumptions C79_before.
(** Without a name on one side, OIDs are compared as octets. *)
Theorem C79_unnamed_partial a b : o_name a = None \/ o_name b = None ->
  exists l g, ocd_lt a b = Ok l /\ ocd_gt a b = Ok g /\ (l = true <-> before (o_oid a) (o_oid b)) /\ (g = true <-> before (o_oid b) (o_oid a)).
Proof.
  intros H. exists (bytes_ltb (o_oid a) (o_oid b)), (bytes_ltb (o_oid b) (o_oid a)). unfold ocd_lt, ocd_gt. rewrite <- !ltb_before. destruct (o_name a) as [[|]|], (o_name b) as [[|]|]; try (destruct H; discriminate); (split; [reflexivity|split; [reflexivity|split; reflexivity]]).
Qed.
Print Assumptions C79_unnamed_partial.
(** The two rules together are no order: three descriptions, one without a name, each less than the next in a ring. *)
Theorem C79_ring_refuted : exists a b c, ocd_ok a /\ ocd_ok b /\ ocd_ok c /\ ocd_lt a b = Ok true /\ ocd_lt b c = Ok true /\ ocd_lt c a = Ok true.
Proof.
  exists (mkOcd (B "1") (Some [B "b"]) None false (SupList []) (B "STRUCTURAL") [] []), (mkOcd (B "2") None None false (SupList []) (B "STRUCTURAL") [] []), (mkOcd (B "3") (Some [B "a"]) None false (SupList []) (B "STRUCTURAL") [] []).
  assert (K : forall oid n, numeric oid -> name_ok n -> ocd_ok (mkOcd oid n None false (SupList []) (B "STRUCTURAL") [] [])) by (intros oid n H1 H2; repeat split; try assumption; cbn; try exact I; auto; apply H1).
  split; [apply K; [now apply oid_check_iff|now apply no_b]|]. split; [apply K; [now apply oid_check_iff|exact I]|]. split; [apply K; [now apply oid_check_iff|now apply no_b]|]. repeat split; vm_compute; reflexivity.
Qed.
Print Assumptions C79_ring_refuted.
(** Nor does <= hold one way or the other between descriptions with the same name. *)
Theorem C79_le_refuted : exists a b ka, named_as a ka /\ named_as b ka /\ ocd_le a b = Ok false /\ ocd_ge a b = Ok false.
Proof.
  exists (mkOcd (B "1") (Some [B "a"]) None false (SupList []) (B "STRUCTURAL") [] []), (mkOcd (B "2") (Some [B "A"]) None false (SupList []) (B "STRUCTURAL") [] []), (B "A").
  split; [exists (B "a"), []; split; [reflexivity|exact (up_folded (B "a"))]|]. split; [exists (B "A"), []; split; [reflexivity|exact (up_folded (B "A"))]|]. split; vm_compute; reflexivity.
Qed.
Print Assumptions C79_le_refuted.
Example C79_case : exists a b, named_as a (B "PERSON") /\ named_as b (B "PERSONS") /\ ocd_lt a b = Ok true /\ ocd_gt b a = Ok true.
Proof.
  exists (mkOcd (B "9") (Some [B "Person"]) None false (SupList []) (B "STRUCTURAL") [] []), (mkOcd (B "1") (Some [B "persons"]) None false (SupList []) (B "STRUCTURAL") [] []).
  split; [exists (B "Person"), []; split; [reflexivity|exact (up_folded (B "Person"))]|]. split; [exists (B "persons"), []; split; [reflexivity|exact (up_folded (B "persons"))]|]. split; vm_compute; reflexivity.
Qed.
