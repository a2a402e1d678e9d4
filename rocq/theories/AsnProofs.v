(** The octets built by toWire are those of RFC 4511 (C68). *)
From Verif Require Import BaseFacts BerModel BerSpec BerProofs LdapModel LdapSpec LdapProofs AsnSpec.

Lemma int2berlen_octets n l : int2berlen n = Ok l -> length_octets n l.
Proof.
  unfold int2berlen. destruct (Z.ltb_spec n 0) as [|Hn]; [discriminate|].
  destruct (int2ber_unsigned n Hn) as (e & E & Hne & Hv & Hmin). rewrite E. cbn [bind].
  destruct (Z.leb_spec n 127) as [H|H].
  - intros [= <-]. left. split; [lia|].
    unfold int2ber in E. destruct (_ + 1)%nat in E; cbn [int2ber_loop andb orb negb] in E.
    all: replace (n >? 255) with false in E by lia; cbn in E; apply Ok_inj in E; subst e.
    all: now rewrite Z.mod_small by lia.
  - destruct (negb (zlen e >? 0)); [discriminate|].
    destruct (Z.leb_spec (zlen e) 127) as [L|]; cbn [negb]; [|discriminate].
    intros [= <-]. right. split; [lia|].
    destruct e as [|b r]; [congruence|]. exists b, r. split; [|split; [exact L|split; [|exact Hv]]].
    + pose proof (zlen_nonneg (b :: r)). now rewrite lor_80 by lia.
    + intros ->. unfold unsigned_value in Hv. cbn [unsigned_acc] in Hv.
      change (256 * 0 + b2z x00) with 0 in Hv. fold (unsigned_value r) in Hv.
      pose proof (unsigned_value_range r) as R. rewrite zlen_cons in Hmin.
      replace (1 + zlen r - 1) with (zlen r) in Hmin by lia.
      destruct Hmin as [Hm|Hm]; [|lia]. replace (zlen r) with 0 in R by lia.
      change (256 ^ 0) with 1 in R. lia.
Qed.

Definition part_enc (p : res bytes) (t : asn) : Prop := forall w, p = Ok w -> encodes t w.

Lemma tlv_octets i c w : tlv i c = Ok w -> exists l, length_octets (zlen c) l /\ w = z2b i :: l ++ c.
Proof.
  unfold tlv. rewrite bind_ok. intros (l & E & [= <-]). exists l. split; [|reflexivity].
  now apply int2berlen_octets.
Qed.

Lemma enc_seq tag parts ts :
  Z.lor STRUCTURED tag = tag + 0x20 -> Forall2 part_enc parts ts -> part_enc (w_seq tag parts) (Cons tag ts).
Proof.
  intros Ht F w W. apply w_seq_inv in W as (ps & P & T). rewrite Ht in T.
  apply tlv_octets in T as (l & L & ->). apply enc_cons; [|exact L].
  clear -F P. revert ps P. induction F as [|p t parts ts H F IH]; intros ps P; inversion P; subst; constructor; auto.
Qed.

Lemma enc_str tag v b : v = VBytes b -> part_enc (w_str tag v) (Prim tag b).
Proof. intros -> w W. cbn [w_str] in W. apply tlv_octets in W as (l & L & ->). now constructor. Qed.

Lemma enc_integer tag z : part_enc (w_int tag (VInt z)) (Int tag z).
Proof.
  intros w W. cbn [w_int] in W. apply bind_ok in W as (e & E & T).
  destruct (int2ber_signed z) as (e' & E' & V & M). rewrite E in E'. apply Ok_inj in E'. subst e'.
  apply tlv_octets in T as (l & L & ->). now constructor.
Qed.

Lemma enc_bool tag v (b : bool) : v = VInt (if b then 1 else 0) \/ v = VInt (if b then 255 else 0) ->
  part_enc (w_bool tag v) (BOOLEAN_ tag b).
Proof.
  intros H w W. assert (E : w_bool tag v = tlv tag [if b then xff else x00]).
  { destruct H as [-> | ->]; destruct b; reflexivity. }
  rewrite E in W. apply tlv_octets in W as (l & L & ->). now constructor.
Qed.

Lemma enc_opt {A} (o : option A) (f : A -> pv) (g : pv -> res bytes) (h : A -> asn) :
  (forall a, f a <> VNone) -> (forall a, part_enc (g (f a)) (h a)) ->
  Forall2 part_enc (pv_part (pyopt f o) g) (OPT h o).
Proof.
  intros N H. destruct o as [a|]; cbn [pyopt OPT].
  - specialize (N a). specialize (H a). destruct (f a); try congruence; repeat constructor; assumption.
  - constructor.
Qed.

Lemma enc_map {A} (l : list A) (f : A -> res bytes) (g : A -> asn) :
  (forall a, part_enc (f a) (g a)) -> Forall2 part_enc (map f l) (map g l).
Proof. intros H. induction l; cbn [map]; constructor; auto. Qed.

Lemma enc_map_F {A} (l : list A) (f : A -> res bytes) (g : A -> asn) :
  Forall (fun a => part_enc (f a) (g a)) l -> Forall2 part_enc (map f l) (map g l).
Proof. intros H. induction H; cbn [map]; constructor; auto. Qed.

Lemma enc_octets b : part_enc (toWire (octets b)) (OCTETS b).
Proof. now apply enc_str. Qed.

Ltac one := first [ exact (enc_octets _) | apply enc_str; reflexivity | exact (enc_integer _ _) | (apply enc_bool; tauto) ].
Ltac enc := repeat first [ apply Forall2_nil | apply Forall2_cons | apply Forall2_app | one | (apply enc_seq; [reflexivity|]) ].

Lemma asn_filter_enc f : part_enc (toWire (filter_obj f)) (asn_filter f).
Proof.
  induction f using filter_ind'; cbn [filter_obj toWire asn_filter].
  - apply enc_seq; [reflexivity|]. rewrite map_map. now apply enc_map_F.
  - apply enc_seq; [reflexivity|]. rewrite map_map. now apply enc_map_F.
  - apply enc_seq; [reflexivity|]. repeat constructor. exact IHf.
  - enc.
  - apply enc_seq; [reflexivity|]. enc. rewrite map_map. apply enc_map.
    intros [[] v]; cbn [sub_obj toWire]; one.
  - enc.
  - enc.
  - one.
  - enc.
  - apply enc_seq; [reflexivity|]. destruct r, a, d as [[]|]; cbn [option_map OPT List.app toWire]; enc.
Qed.

Lemma asn_attribute_enc a : part_enc (toWire (attr_obj a)) (asn_attribute a).
Proof.
  unfold attr_obj, asn_attribute. cbn [toWire map]. enc. rewrite map_map. apply enc_map. exact enc_octets.
Qed.

Lemma asn_request_enc r : part_enc (toWire (request_obj r)) (asn_request (seen_request r)).
Proof.
  destruct r as [v dn [pw|m [[|b c]|]]| |b sc de si ti ty f at_|dn ms|dn ats|dn|dn nr d ns|dn a v|i|n v];
    cbn [request_obj seen_request asn_request toWire w_auth truthy pyopt OPT]; try (enc; fail).
  - intros w W. apply Ok_inj in W. subst w. cbn [w_null].
    apply (enc_prim (appl 2) [] [x00]). left. rewrite zlen_nil. split; [lia|reflexivity].
  - apply enc_seq; [reflexivity|]. enc. apply asn_filter_enc. rewrite map_map. apply enc_map. intros. one.
  - apply enc_seq; [reflexivity|]. enc. rewrite map_map. apply enc_map. intros [op a vs]. cbn [mod_obj toWire map].
    cbn [m_op m_attr m_values]. apply enc_seq; [reflexivity|].
    constructor; [one|]. constructor; [exact (asn_attribute_enc (a, vs))|constructor].
  - apply enc_seq; [reflexivity|]. enc. rewrite map_map. apply enc_map. exact asn_attribute_enc.
  - apply enc_seq; [reflexivity|]. apply Forall2_app; [enc; destruct d; tauto|].
    apply enc_opt; [discriminate|]. intros. one.
  - apply enc_seq; [reflexivity|]. constructor; [one|].
    apply enc_opt; [discriminate|]. intros. one.
Qed.

Lemma asn_response_enc r : part_enc (toWire (response_obj r)) (asn_response (seen_response r)).
Proof.
  destruct r as [r [[|b c]|]|dn ats|r|us|r|r|r|r|r|r n v];
    cbn [response_obj seen_response asn_response toWire result_obj truthy pyopt OPT List.app]; try (enc; fail).
  - apply enc_seq; [reflexivity|]. enc. rewrite map_map. apply enc_map. intros [a vs]. cbn [fst snd].
    unfold asn_attribute. cbn [fst snd]. enc. rewrite map_map. apply enc_map. intros. one.
  - apply enc_seq; [reflexivity|]. rewrite map_map. apply enc_map. intros. one.
  - apply enc_seq; [reflexivity|]. apply (Forall2_app (l1 := [_; _; _]) (l1' := [_; _; _])); [enc|].
    apply Forall2_app; (apply enc_opt; [discriminate|]; intros; one).
Qed.

Lemma asn_message_enc i op t cs :
  part_enc (toWire op) t -> part_enc (toWire (message_obj i op cs)) (asn_message i t cs).
Proof.
  intros H. unfold message_obj, asn_message. cbn [toWire]. apply enc_seq; [reflexivity|].
  apply Forall2_app; [enc; exact H|]. destruct cs as [l|]; cbn [option_map opt_part OPT]; [|constructor].
  enc. rewrite map_map. apply enc_map. intros [oid cr v]. unfold control_args, w_control, asn_control.
  cbn [c_oid c_critical c_value]. apply enc_seq; [reflexivity|].
  apply (Forall2_app (l1 := [_]) (l1' := [_])); [enc|].
  apply Forall2_app; (apply enc_opt; [discriminate|]; intros; try one).
Qed.

Lemma request_octets i r cs w :
  toWire (message_obj i (request_obj r) cs) = Ok w -> encodes (asn_message i (asn_request (seen_request r)) cs) w.
Proof. apply asn_message_enc, asn_request_enc. Qed.
Lemma response_octets i r cs w :
  toWire (message_obj i (response_obj r) cs) = Ok w -> encodes (asn_message i (asn_response (seen_response r)) cs) w.
Proof. apply asn_message_enc, asn_response_enc. Qed.
