(** Facts about the LDAP message model: fuel, then the encode/decode round trips. *)
From Verif Require Import BaseFacts BerModel BerSpec BerProofs LdapModel LdapSpec.

(** ** Fuel *)
Section DecsExt.
  Context {ctx cls obj : Type}.
  Variable lookup : ctx -> Z -> option cls.
  Variable inh : ctx -> ctx.
  Variables F G : cls -> Z -> bytes -> ctx -> res obj.

  Lemma header_shorter (m : bytes) i x n :
    berHeader m = Ok (i, x, n) -> (length x < length m)%nat.
  Proof. intros H. apply berHeader_bounds in H as (A & _ & B & _). unfold zlen in *. lia. Qed.

  Lemma dec_ext_fun c m :
    (forall k i x d, (length x < length m)%nat -> F k i x d = G k i x d) ->
    berDecodeObject lookup inh F c m = berDecodeObject lookup inh G c m.
  Proof.
    intros H. unfold berDecodeObject. destruct m as [|b m]; [reflexivity|].
    destruct (berHeader (b :: m)) as [[[i x] n]|e] eqn:E; [|reflexivity]. cbn [bind].
    destruct (lookup c i); [|reflexivity]. rewrite H; [reflexivity|].
    eapply header_shorter; eauto.
  Qed.

  Lemma loop_ext_fun fuel c m :
    (forall k i x d, (length x < length m)%nat -> F k i x d = G k i x d) ->
    berDecodeMultiple_loop lookup inh F fuel c m = berDecodeMultiple_loop lookup inh G fuel c m.
  Proof.
    revert m. induction fuel as [|f IH]; intros m H; destruct m as [|b m]; try reflexivity.
    cbn [berDecodeMultiple_loop]. rewrite (dec_ext_fun c (b :: m)) by exact H.
    destruct (berDecodeObject lookup inh G c (b :: m)) as [[o n]|e] eqn:E; [|reflexivity].
    cbn [bind]. destruct (negb _); [reflexivity|]. rewrite IH; [reflexivity|].
    intros k i x d L. apply H. unfold zdrop in L. rewrite skipn_length in L. lia.
  Qed.

  Lemma decs_ext_fun m c :
    (forall k i x d, (length x < length m)%nat -> F k i x d = G k i x d) ->
    berDecodeMultiple lookup inh F m c = berDecodeMultiple lookup inh G m c.
  Proof. apply loop_ext_fun. Qed.
End DecsExt.

Definition nofuel {A} (r : res A) : Prop := r <> Err EFuel.

Ltac nfc := unfold nofuel in *; intros ?; congruence.
Lemma nf_ok A (a : A) : nofuel (Ok a). Proof. nfc. Qed.
Lemma nf_bind A B (r : res A) (k : A -> res B) :
  nofuel r -> (forall a, nofuel (k a)) -> nofuel (bind r k).
Proof. destruct r; cbn; intros H K; [apply K|]. intros [= ->]. now apply H. Qed.
Lemma nf_guard b e : e <> EFuel -> nofuel (guard b e).
Proof. destruct b; cbn; unfold nofuel; congruence. Qed.
Lemma nf_mapM A B (f : A -> res B) l : (forall a, nofuel (f a)) -> nofuel (mapM f l).
Proof.
  intros H. induction l; cbn [mapM]; [apply nf_ok|].
  apply nf_bind; [apply H|intros]. apply nf_bind; [apply IHl|intros; apply nf_ok].
Qed.
Lemma nf_value_of o : nofuel (value_of o). Proof. destruct o; cbn; nfc. Qed.
Lemma nf_data_of o : nofuel (data_of o). Proof. destruct o; cbn; nfc. Qed.
Lemma nf_iter_of o : nofuel (iter_of o). Proof. destruct o; cbn; nfc. Qed.
Lemma nf_nth l n : nofuel (nth_obj l n).
Proof. unfold nth_obj. destruct (nth_error l n); congruence. Qed.
Lemma nf_ber2int s e : nofuel (ber2int s e).
Proof. destruct e; [now destruct s|]. destruct s; rewrite ?ber2int_signed, ?ber2int_unsigned; nfc. Qed.
Lemma nf_control_tuple o : nofuel (control_tuple o). Proof. destruct o; cbn; nfc. Qed.
Lemma nf_as_bytes o : nofuel (as_bytes o). Proof. destruct o; cbn; nfc. Qed.
Lemma nf_ext_parts l a b : nofuel (ext_parts l a b).
Proof.
  revert a b. induction l as [|o l IH]; intros; cbn [ext_parts]; [nfc|].
  repeat (destruct (_ : bool)); try apply nf_bind; auto using nf_value_of; nfc.
Qed.
Lemma nf_entry_attr o : nofuel (entry_attr o).
Proof.
  unfold entry_attr. apply nf_bind; [apply nf_iter_of|]. intros l.
  destruct l as [|x [|y [|]]]; try nfc.
  repeat (apply nf_bind; intros); auto using nf_value_of, nf_iter_of, nf_ok.
  apply nf_mapM, nf_value_of.
Qed.

Section NoFuel.
  Context {ctx cls obj : Type}.
  Variable lookup : ctx -> Z -> option cls.
  Variable inh : ctx -> ctx.
  Variable F : cls -> Z -> bytes -> ctx -> res obj.

  Lemma dec_nf c m :
    (forall k i x d, (length x < length m)%nat -> nofuel (F k i x d)) ->
    nofuel (berDecodeObject lookup inh F c m).
  Proof.
    intros H. unfold berDecodeObject. destruct m as [|b m]; [nfc|].
    destruct (berHeader (b :: m)) as [[[i x] n]|e] eqn:E; cbn [bind].
    - destruct (lookup c i); [|nfc].
      apply nf_bind; [|intros; apply nf_ok]. apply H. eapply header_shorter; eauto.
    - apply berHeader_err in E. subst. nfc.
  Qed.

  Lemma decs_nf m c :
    (forall k i x d, (length x < length m)%nat -> nofuel (F k i x d)) ->
    nofuel (berDecodeMultiple lookup inh F m c).
  Proof.
    unfold berDecodeMultiple.
    assert (G : forall fuel m, (length m <= fuel)%nat ->
              (forall k i x d, (length x < length m)%nat -> nofuel (F k i x d)) ->
              nofuel (berDecodeMultiple_loop lookup inh F fuel c m)).
    { clear m. induction fuel as [|f IH]; intros l L H.
      - destruct l; [cbn; nfc|cbn in L; lia].
      - destruct l as [|b l]; [cbn; nfc|]. cbn [berDecodeMultiple_loop].
        pose proof (dec_nf c (b :: l) H) as HD.
        destruct (berDecodeObject lookup inh F c (b :: l)) as [[o n]|e] eqn:E.
        + cbn [bind]. apply dec_bounds in E; [|nfc].
          destruct (negb (n <=? zlen (b :: l))); [nfc|].
          apply nf_bind; [|intros; apply nf_ok].
          apply IH; unfold zdrop; rewrite skipn_length.
          * unfold zlen in E. cbn [length] in *. lia.
          * intros. apply H. cbn [length] in *. lia.
        + cbn [bind]. intros [= ->]. now apply HD. }
    apply G. lia.
  Qed.
End NoFuel.

Lemma fromBER_fuel f f' k tag content d :
  (length content < f)%nat -> (length content < f')%nat ->
  fromBER f k tag content d = fromBER f' k tag content d.
Proof.
  revert f' k tag content d. induction f as [|f IH]; intros f' k tag content d L L'; [lia|].
  destruct f' as [|f']; [lia|].
  assert (HM : forall c, berDecodeMultiple lookup_id inherit (fromBER f) content c
                       = berDecodeMultiple lookup_id inherit (fromBER f') content c).
  { intros c. apply decs_ext_fun. intros. apply IH; lia. }
  assert (HO : forall c, berDecodeObject lookup_id inherit (fromBER f) c content
                       = berDecodeObject lookup_id inherit (fromBER f') c content).
  { intros c. apply dec_ext_fun. intros. apply IH; lia. }
  destruct k; cbn [fromBER]; rewrite ?HM, ?HO; reflexivity.
Qed.

Ltac nf :=
  repeat first
    [ apply nf_ok | apply nf_ber2int | apply nf_ext_parts | apply nf_bind; [|intros] | apply nf_guard; congruence
    | apply nf_value_of | apply nf_data_of | apply nf_iter_of | apply nf_nth | apply nf_ber2int
    | apply nf_as_bytes | apply nf_ext_parts
    | apply nf_mapM; intros; first [apply nf_value_of | apply nf_control_tuple | apply nf_entry_attr]
    | match goal with
      | |- nofuel (Err _) => nfc
      | |- nofuel (match ?x with _ => _ end) => destruct x
      | |- nofuel (let (_, _) := ?x in _) => destruct x
      end ].

Lemma fromBER_nofuel f k tag content d :
  (length content < f)%nat -> nofuel (fromBER f k tag content d).
Proof.
  revert k tag content d. induction f as [|f IH]; intros k tag content d L; [lia|].
  assert (HM : forall c, nofuel (berDecodeMultiple lookup_id inherit (fromBER f) content c)).
  { intros c. apply decs_nf. intros. apply IH; lia. }
  assert (HO : forall c, nofuel (berDecodeObject lookup_id inherit (fromBER f) c content)).
  { intros c. apply dec_nf. intros. apply IH; lia. }
  destruct k; cbn [fromBER]; repeat first [apply HM | apply HO | progress nf].
Qed.

(** decode with any sufficient fuel *)
Lemma decode_fuel f c m :
  (length m <= f)%nat -> decode c m = berDecodeObject lookup_id inherit (fromBER f) c m.
Proof.
  intros L. unfold decode. apply dec_ext_fun. intros. apply fromBER_fuel; lia.
Qed.

Lemma decode_nofuel c m : nofuel (decode c m).
Proof. unfold decode. apply dec_nf. intros. apply fromBER_nofuel; lia. Qed.

(** ** Reading one encoded element in a context *)
Definition mask (i : Z) : Z := Z.land i (Z.lor CLASS_MASK TAG_MASK).

Definition reads (c : ctx) (w : bytes) (o : obj) : Prop :=
  exists ident content k,
    0 <= ident < 256 /\ tlv ident content = Ok w /\ lookup_id c (mask ident) = Some k /\
    forall f, (length content < f)%nat -> fromBER f k (mask ident) content (inherit c) = Ok o.

Lemma tlv_length ident content w :
  tlv ident content = Ok w -> (length content < length w)%nat.
Proof.
  unfold tlv. rewrite bind_ok. intros (l & _ & [= <-]). cbn [length]. rewrite app_length. lia.
Qed.

Lemma reads_decode c w o rest : reads c w o -> decode c (w ++ rest) = Ok (Some o, zlen w).
Proof.
  intros (ident & content & k & Hi & T & L & R). unfold decode.
  rewrite (dec_tlv _ _ _ _ _ _ _ _ _ Hi T L).
  fold (mask ident). rewrite R; [reflexivity|].
  apply tlv_length in T. rewrite app_length. lia.
Qed.

Lemma reads_dec c w o f :
  reads c w o -> (length w <= f)%nat ->
  berDecodeObject lookup_id inherit (fromBER f) c w = Ok (Some o, zlen w).
Proof.
  intros (ident & content & k & Hi & T & L & R) Hf.
  rewrite <- (app_nil_r w) at 1.
  rewrite (dec_tlv _ _ _ _ _ _ _ _ _ Hi T L).
  fold (mask ident). rewrite R; [reflexivity|]. apply tlv_length in T. lia.
Qed.

Lemma reads_decs c ws os f :
  Forall2 (reads c) ws os -> (length (concat ws) <= f)%nat ->
  berDecodeMultiple lookup_id inherit (fromBER f) (concat ws) c = Ok os.
Proof.
  induction 1 as [|w o ws os (ident & content & k & Hi & T & L & R) F IH]; intros Hf.
  - reflexivity.
  - cbn [concat] in *. rewrite app_length in Hf.
    rewrite (decs_cons _ _ _ _ _ _ _ _ _ Hi T L). fold (mask ident).
    pose proof (tlv_length _ _ _ T).
    rewrite R by lia. cbn [bind]. rewrite IH by lia. reflexivity.
Qed.

(** Taking an encoding apart. *)
Lemma mapM_Forall2 {A B} (f : A -> res B) l ys :
  mapM f l = Ok ys -> Forall2 (fun x y => f x = Ok y) l ys.
Proof.
  revert ys. induction l as [|x l IH]; intros ys; cbn [mapM].
  - intros [= <-]. constructor.
  - rewrite bind_ok. intros (y & E & H). rewrite bind_ok in H. destruct H as (r & E2 & [= <-]).
    constructor; auto.
Qed.

Lemma w_seq_inv tag parts w :
  w_seq tag parts = Ok w ->
  exists ps, Forall2 (fun r p => r = Ok p) parts ps /\ tlv (Z.lor STRUCTURED tag) (concat ps) = Ok w.
Proof.
  unfold w_seq. rewrite bind_ok. intros (ps & E & T). apply mapM_Forall2 in E. eauto.
Qed.

(** Every element that is built is a TLV. *)
Lemma z2b_mod i : z2b (i mod 256) = z2b i.
Proof. apply b2z_inj. rewrite !b2z_z2b. apply Z.mod_mod. lia. Qed.

Lemma tlv_mod i content : tlv (i mod 256) content = tlv i content.
Proof. unfold tlv. now rewrite z2b_mod. Qed.

Lemma reads_prim c tag content w k o :
  0 <= tag < 256 -> mask tag = tag -> tlv tag content = Ok w -> lookup_id c tag = Some k ->
  (forall f, fromBER (S f) k tag content (inherit c) = Ok o) -> reads c w o.
Proof.
  intros Hi Hm T L R. exists tag, content, k. rewrite Hm. repeat split; try tauto.
  intros f Hf. destruct f; [lia|]. apply R.
Qed.

Lemma reads_struct c tag ps w k o :
  0 <= Z.lor STRUCTURED tag < 256 -> mask (Z.lor STRUCTURED tag) = tag ->
  tlv (Z.lor STRUCTURED tag) (concat ps) = Ok w -> lookup_id c tag = Some k ->
  (forall f, (length (concat ps) <= f)%nat ->
             fromBER (S f) k tag (concat ps) (inherit c) = Ok o) -> reads c w o.
Proof.
  intros Hi Hm T L R. exists (Z.lor STRUCTURED tag), (concat ps), k. rewrite Hm.
  repeat split; try tauto. intros f Hf. destruct f; [lia|]. apply R. lia.
Qed.

(** Side conditions on concrete tags. *)
Ltac tagside :=
  match goal with
  | |- _ <= _ < _ => vm_compute; split; congruence
  | |- mask _ = _ => reflexivity
  | |- lookup_id _ _ = _ => first [reflexivity | eassumption]
  | |- _ => eassumption
  end.

Lemma fromBER_int f k tag e z d :
  int2ber true z = Ok e -> In k [KInteger; KEnum; KAbandon] ->
  fromBER (S f) k tag e d = Ok (OInt k tag z).
Proof.
  intros E Hk. destruct (int2ber_signed z) as (w & E2 & V & M).
  rewrite E in E2. apply Ok_inj in E2. subst w. pose proof (shortest_nonempty _ M) as N.
  assert (G : guard (zlen e >? 0) EAssert = Ok tt).
  { destruct e; [congruence|]. rewrite zlen_cons. pose proof (zlen_nonneg e).
    unfold guard. destruct (1 + zlen e >? 0) eqn:X; [reflexivity|lia]. }
  destruct Hk as [<-|[<-|[<-|[]]]]; cbn [fromBER]; rewrite G; cbn [bind];
    rewrite ber2int_signed by exact N; cbn [bind]; rewrite V; reflexivity.
Qed.

Lemma reads_int c tag z w k :
  0 <= tag < 256 -> mask tag = tag -> lookup_id c tag = Some k ->
  In k [KInteger; KEnum; KAbandon] ->
  w_int tag (VInt z) = Ok w -> reads c w (OInt k tag z).
Proof.
  intros Hi Hm L Hk. unfold w_int. rewrite bind_ok. intros (e & E & T).
  eapply reads_prim; eauto. intros f. now apply fromBER_int.
Qed.

Definition truth (v : pv) : Z := match v with VInt z => if z =? 0 then 0 else 255 | _ => 255 end.

Lemma reads_bool c tag z w k :
  0 <= tag < 256 -> mask tag = tag -> lookup_id c tag = Some k -> In k [KBoolean; KMraDn] ->
  w_bool tag (VInt z) = Ok w -> reads c w (OBool k tag (if z =? 0 then 0 else 255)).
Proof.
  intros Hi Hm L Hk T. unfold w_bool in T. eapply reads_prim; eauto. intros f.
  destruct Hk as [<-|[<-|[]]]; cbn [fromBER]; destruct (z =? 0); reflexivity.
Qed.

Definition str_classes : list cls :=
  [KOctet; KString; KServerSaslCreds; KDelReq; KRespName; KResponse; KNewSuperior; KPresent;
   KSubInitial; KSubAny; KSubFinal; KMraRule; KMraType; KMraValue; KPwUser; KPwOld; KPwNew].

Lemma reads_str c tag b w k :
  0 <= tag < 256 -> mask tag = tag -> lookup_id c tag = Some k -> In k str_classes ->
  w_str tag (VBytes b) = Ok w -> reads c w (OStr k tag b).
Proof.
  intros Hi Hm L Hk T. unfold w_str in T. eapply reads_prim; eauto. intros f.
  unfold str_classes in Hk. cbn [In] in Hk.
  repeat (destruct Hk as [<-|Hk]; [reflexivity|]). destruct Hk.
Qed.

Lemma reads_null c tag k :
  0 <= tag < 256 -> mask tag = tag -> lookup_id c tag = Some k -> In k [KNull; KUnbind] ->
  reads c (w_null tag) (ONull k tag).
Proof.
  intros Hi Hm L Hk. eapply (reads_prim c tag []); eauto.
  intros f. destruct Hk as [<-|[<-|[]]]; reflexivity.
Qed.

Lemma reads_seq c tag parts w k os :
  0 <= Z.lor STRUCTURED tag < 256 -> mask (Z.lor STRUCTURED tag) = tag ->
  lookup_id c tag = Some k -> In k [KSeq; KSet; KReferral] ->
  w_seq tag parts = Ok w ->
  Forall2 (fun p o => forall w, p = Ok w -> reads (inherit c) w o) parts os ->
  reads c w (OSeq k tag os).
Proof.
  intros Hi Hm L Hk W F. apply w_seq_inv in W as (ps & P & T).
  eapply reads_struct; eauto. intros f Hf.
  assert (G : Forall2 (reads (inherit c)) ps os).
  { clear -P F. revert os F. induction P; intros os F; inversion F; subst; constructor; auto. }
  destruct Hk as [<-|[<-|[<-|[]]]]; cbn [fromBER]; rewrite (reads_decs _ _ _ _ G Hf); reflexivity.
Qed.

Lemma Forall2_map_l {A B C} (R : A -> B -> Prop) (f : C -> A) l l' :
  Forall2 (fun x y => R (f x) y) l l' -> Forall2 R (map f l) l'.
Proof. induction 1; cbn; constructor; auto. Qed.

Lemma Forall2_map_r {A B C} (R : A -> B -> Prop) (f : C -> B) l l' :
  Forall2 (fun x y => R x (f y)) l l' -> Forall2 R l (map f l').
Proof. induction 1; cbn; constructor; auto. Qed.

Lemma Forall2_diag {A} (R : A -> A -> Prop) l : Forall (fun x => R x x) l -> Forall2 R l l.
Proof. induction 1; constructor; auto. Qed.

(** The parts of a sequence, read one by one. *)
Lemma parts_read c parts ps os :
  Forall2 (fun r p => r = Ok p) parts ps ->
  Forall2 (fun p o => forall w, p = Ok w -> reads c w o) parts os ->
  Forall2 (reads c) ps os.
Proof. intros P. revert os. induction P; intros os F; inversion F; subst; constructor; auto. Qed.

(** ** Universal values (C03) *)
Section ValueInd.
  Variable P : value -> Prop.
  Hypothesis HB : forall b, P (UBool b).
  Hypothesis HI : forall b, P (UInt b).
  Hypothesis HS : forall b, P (UStr b).
  Hypothesis HN : P UNull.
  Hypothesis HE : forall b, P (UEnum b).
  Hypothesis HSeq : forall l, Forall P l -> P (USeq l).
  Hypothesis HSet : forall l, Forall P l -> P (USet l).
  Fixpoint value_ind' (v : value) : P v :=
    let all := fix all l : Forall P l :=
      match l with [] => Forall_nil _ | x :: r => Forall_cons _ (value_ind' x) (all r) end in
    match v with
    | UBool b => HB b | UInt b => HI b | UStr b => HS b | UNull => HN | UEnum b => HE b
    | USeq l => HSeq l (all l) | USet l => HSet l (all l)
    end.
End ValueInd.

Lemma value_reads v : forall w, toWire (value_obj v) = Ok w -> reads ctx_ber w (value_obj v).
Proof.
  induction v using value_ind'; intros w W; cbn [value_obj toWire] in *.
  - assert (E : (if b then 255 else 0) = (if (if b then 255 else 0) =? 0 then 0 else 255))
      by (destruct b; reflexivity).
    rewrite E. eapply reads_bool; try tagside. cbn; auto.
  - eapply reads_int; try tagside. cbn; auto.
  - eapply reads_str; try tagside. cbn; auto.
  - apply Ok_inj in W. subst. eapply reads_null; try tagside. cbn; auto.
  - eapply reads_int; try tagside. cbn; auto.
  - eapply reads_seq; try tagside. cbn; auto.
    apply Forall2_map_l, Forall2_map_l, Forall2_map_r, Forall2_diag. exact H.
  - eapply reads_seq; try tagside. cbn; auto.
    apply Forall2_map_l, Forall2_map_l, Forall2_map_r, Forall2_diag. exact H.
Qed.

(** ** Filters (C11) *)
Definition good (d : ctx) : Prop := lookup_id d 0x04 = Some KOctet /\ lookup_id d 0x10 = Some KSeq.

Lemma lookup_fallback t d i tag :
  assocz tag (identities t) = None -> lookup_id (Ctx t (Some d) i) tag = lookup_id d tag.
Proof. intros H. cbn [lookup_id]. now rewrite H. Qed.

Lemma good_over t d i :
  good d -> assocz 4 (identities t) = None -> assocz 0x10 (identities t) = None ->
  good (Ctx t (Some d) i).
Proof. intros (A & B) H1 H2. split; rewrite lookup_fallback; auto. Qed.

Lemma reads_octets c b w :
  lookup_id c 0x04 = Some KOctet -> w_str 0x04 (VBytes b) = Ok w -> reads c w (octets b).
Proof. intros G. apply reads_str; try tagside. cbn; auto. Qed.

Ltac parts F :=
  repeat match goal with
  | H : Forall2 _ (_ :: _) _ |- _ => inversion H; clear H; subst
  | H : Forall2 _ [] _ |- _ => inversion H; clear H; subst
  end.

Lemma ava_reads k tag c a v w :
  0 <= Z.lor STRUCTURED tag < 256 -> mask (Z.lor STRUCTURED tag) = tag ->
  lookup_id c tag = Some k -> In k [KAva; KEq; KGe; KLe; KApprox] ->
  lookup_id (inherit c) 4 = Some KOctet ->
  toWire (OAva k tag (octets a) (octets v)) = Ok w ->
  reads c w (OAva k tag (octets a) (octets v)).
Proof.
  intros Hi Hm L Hk G W. cbn [toWire octets] in W. apply w_seq_inv in W as (ps & P & T).
  eapply reads_struct; eauto. intros f Hf. 
  assert (R : Forall2 (reads (inherit c)) ps [octets a; octets v]).
  { eapply parts_read; [exact P|]. repeat constructor; intros; now apply reads_octets. }
  pose proof (reads_decs _ _ _ _ R Hf) as D.
  cbn [In] in Hk. repeat (destruct Hk as [<-|Hk]; [cbn [fromBER]; rewrite D; reflexivity|]).
  destruct Hk.
Qed.

Lemma filter_reads f : forall w c d i,
  c = Ctx T_Filter (Some d) i -> good (inherit c) ->
  toWire (filter_obj f) = Ok w -> reads c w (filter_obj f).
Proof.
  induction f using filter_ind'; intros w c cd ci Hc G W; cbn [filter_obj] in *.
  - (* and *)
    cbn [toWire] in W. apply w_seq_inv in W as (ps & P & T).
    eapply reads_struct with (k := KAnd); try tagside; try tagside; [now rewrite Hc|]. intros f Hf.
    cbn [fromBER]. erewrite (reads_decs _ ps); [reflexivity| |exact Hf].
    eapply parts_read; [exact P|].
    apply Forall2_map_l, Forall2_map_l, Forall2_map_r, Forall2_diag.
    eapply Forall_impl; [|exact H]. cbn beta. intros g Hg w' W'.
    eapply Hg; [reflexivity| |exact W'].
    cbn [inherit]. apply good_over; [exact G|reflexivity|reflexivity].
  - (* or *)
    cbn [toWire] in W. apply w_seq_inv in W as (ps & P & T).
    eapply reads_struct with (k := KOr); try tagside; try tagside; [now rewrite Hc|]. intros f Hf.
    cbn [fromBER]. erewrite (reads_decs _ ps); [reflexivity| |exact Hf].
    eapply parts_read; [exact P|].
    apply Forall2_map_l, Forall2_map_l, Forall2_map_r, Forall2_diag.
    eapply Forall_impl; [|exact H]. cbn beta. intros g Hg w' W'.
    eapply Hg; [reflexivity| |exact W'].
    cbn [inherit]. apply good_over; [exact G|reflexivity|reflexivity].
  - (* not *)
    cbn [toWire] in W. apply w_seq_inv in W as (ps & P & T). parts P.
    eapply reads_struct with (k := KNot); try tagside; try tagside.
    intros g Hg. cbn [fromBER]. cbn [concat] in *. rewrite app_nil_r in *.
    erewrite reads_dec; [|eapply IHf; [reflexivity| |eassumption]; exact G|exact Hg].
    cbn [bind]. unfold guard. rewrite Z.eqb_refl. reflexivity.
  - (* equality *)
    eapply ava_reads; try tagside; try tagside; [now rewrite Hc|cbn; auto|apply G].
  - (* substrings *)
    cbn [toWire] in W. apply w_seq_inv in W as (ps & P & T).
    eapply reads_struct with (k := KSubstr); try tagside; try tagside; [now rewrite Hc|]. intros g Hg.
    cbn [fromBER].
    erewrite (reads_decs _ ps [octets a; OSeq KSeq 0x10 (map sub_obj l)]); [reflexivity| |exact Hg].
    eapply parts_read; [exact P|]. constructor; [|constructor; [|constructor]].
    + intros w0 W0. apply reads_octets; [|exact W0]. rewrite lookup_fallback by reflexivity. apply G.
    + intros w0 W0. eapply reads_seq; try exact W0; try tagside.
      * rewrite lookup_fallback by reflexivity. apply G.
      * cbn; auto.
      * apply Forall2_map_l, Forall2_map_l, Forall2_map_r, Forall2_diag, Forall_forall.
        intros [[] b] _ w1; cbn [sub_obj toWire]; apply reads_str; try tagside;
          unfold str_classes; cbn; tauto.
  - eapply ava_reads; try tagside; try tagside; [now rewrite Hc|cbn; auto|apply G].
  - eapply ava_reads; try tagside; try tagside; [now rewrite Hc|cbn; auto|apply G].
  - cbn [toWire] in W. eapply reads_str; try tagside; try tagside; [now rewrite Hc|unfold str_classes; cbn; tauto].
  - eapply ava_reads; try tagside; try tagside; [now rewrite Hc|cbn; tauto|apply G].
  - (* extensible *)
    cbn [toWire] in W. apply w_seq_inv in W as (ps & P & T).
    eapply reads_struct with (k := KExt); try tagside; try tagside; [now rewrite Hc|]. intros g Hg.
    cbn [fromBER].
    set (or := option_map (OStr KMraRule 0x81) r).
    set (oa := option_map (OStr KMraType 0x82) a).
    set (od := option_map (fun b : bool => OBool KMraDn 0x84 (if b then 0xFF else 0)) d).
    fold or oa od in P.
    set (os := match or with Some o => [o] | None => [] end ++
               match oa with Some o => [o] | None => [] end ++
               [OStr KMraValue 0x83 v] ++ match od with Some o => [o] | None => [] end).
    erewrite (reads_decs _ ps os); [| |exact Hg].
    + cbn [bind]. subst os.
      replace (guard _ EAssert) with (@Ok unit tt)
        by (destruct r, a, d; reflexivity).
      cbn [bind].
      destruct r, a, d; reflexivity.
    + eapply parts_read; [exact P|]. subst os or oa od.
      repeat apply Forall2_app.
      * destruct r; cbn [option_map]; repeat constructor. intros w0; cbn [toWire].
        apply reads_str; try tagside; unfold str_classes; cbn; tauto.
      * destruct a; cbn [option_map]; repeat constructor. intros w0; cbn [toWire].
        apply reads_str; try tagside; unfold str_classes; cbn; tauto.
      * repeat constructor. intros w0; cbn [toWire].
        apply reads_str; try tagside; unfold str_classes; cbn; tauto.
      * destruct d as [b|]; cbn [option_map]; repeat constructor. intros w0; cbn [toWire].
        assert (E : (if b then 255 else 0) = (if (if b then 255 else 0) =? 0 then 0 else 255))
          by (destruct b; reflexivity).
        rewrite E at 2. apply reads_bool; try tagside; cbn; tauto.
Qed.

Lemma all_some_map {A B} (f : A -> option B) (g : B -> A) l :
  (forall x, f (g x) = Some x) -> all_some (map f (map g l)) = Some l.
Proof. intros H. induction l; cbn; [reflexivity|]. rewrite H, IHl. reflexivity. Qed.

Lemma read_filter_obj f : read_filter (filter_obj f) = Some f.
Proof.
  induction f using filter_ind'; cbn; try reflexivity.
  - enough (E : all_some (map read_filter (map filter_obj l)) = Some l) by (now rewrite E).
    induction H; cbn; [reflexivity|]. rewrite H, IHForall. reflexivity.
  - enough (E : all_some (map read_filter (map filter_obj l)) = Some l) by (now rewrite E).
    induction H; cbn; [reflexivity|]. rewrite H, IHForall. reflexivity.
  - now rewrite IHf.
  - rewrite all_some_map; [reflexivity|]. intros [[] b]; reflexivity.
  - destruct r, a, d; try destruct b; try destruct b0; try destruct b1; reflexivity.
Qed.

(** ** Messages (C09, C10) *)
Ltac strc := unfold str_classes; cbn; tauto.
(** One part of a sequence whose decoder context is concrete. *)
Ltac part :=
  let w := fresh "w" in let W := fresh "W" in
  intros w W;
  first
    [ eapply reads_octets; [reflexivity | exact W]
    | eapply reads_int; [tagside | tagside | reflexivity | cbn; tauto | exact W]
    | eapply reads_bool; [tagside | tagside | reflexivity | cbn; tauto | exact W]
    | eapply reads_str; [tagside | tagside | reflexivity | strc | exact W] ].
Ltac struct kk W ps P T f Hf :=
  apply w_seq_inv in W as (ps & P & T);
  eapply (fun c tag ps w o => reads_struct c tag ps w kk o); [ | | exact T | | ]; try tagside;
  intros f Hf; cbn [fromBER inherit ctx_message ctx_top].
Ltac contents ps os P Hf :=
  erewrite (reads_decs _ ps os); [ | eapply parts_read; [exact P|] | exact Hf].

Lemma octet_list_reads c tag k l w :
  0 <= Z.lor STRUCTURED tag < 256 -> mask (Z.lor STRUCTURED tag) = tag ->
  lookup_id c tag = Some k -> In k [KSeq; KSet; KReferral] ->
  lookup_id (inherit c) 4 = Some KOctet ->
  w_seq tag (map (w_str 0x04) (map VBytes l)) = Ok w -> reads c w (OSeq k tag (map octets l)).
Proof.
  intros Hi Hm L Hk G W. eapply reads_seq; eauto.
  apply Forall2_map_l, Forall2_map_l, Forall2_map_r, Forall2_diag, Forall_forall.
  intros b _ w' W'. now apply reads_octets.
Qed.

Lemma map_octets_wire l : map toWire (map octets l) = map (w_str 0x04) (map VBytes l).
Proof. rewrite !map_map. reflexivity. Qed.

Lemma attr_reads c a w :
  lookup_id c 0x10 = Some KSeq -> lookup_id (inherit c) 4 = Some KOctet ->
  lookup_id (inherit c) 0x11 = Some KSet -> lookup_id (inherit (inherit c)) 4 = Some KOctet ->
  toWire (attr_obj a) = Ok w -> reads c w (attr_obj a).
Proof.
  intros L1 L2 L3 L4 W. destruct a as [a vs]. unfold attr_obj in *. cbn [fst snd] in *.
  cbn [toWire] in W. eapply reads_seq; try exact W; try tagside; [cbn; auto|].
  repeat constructor.
  - intros w' W'. now apply reads_octets.
  - intros w' W'. cbn [toWire] in W'. rewrite map_octets_wire in W'.
    eapply octet_list_reads; try exact W'; try tagside. cbn; auto.
Qed.

Lemma mod_reads c m w :
  lookup_id c 0x10 = Some KSeq -> lookup_id (inherit c) 0x0A = Some KEnum ->
  lookup_id (inherit c) 0x10 = Some KSeq -> lookup_id (inherit (inherit c)) 4 = Some KOctet ->
  lookup_id (inherit (inherit c)) 0x11 = Some KSet ->
  lookup_id (inherit (inherit (inherit c))) 4 = Some KOctet ->
  toWire (mod_obj m) = Ok w -> reads c w (mod_obj m).
Proof.
  intros L1 L2 L3 L4 L5 L6 W. destruct m as [op a vs]. unfold mod_obj in *.
  cbn [m_op m_attr m_values] in *. cbn [toWire] in W.
  eapply reads_seq; try exact W; try tagside; [cbn; auto|]. repeat constructor.
  - intros w' W'. eapply reads_int; try exact W'; try tagside. cbn; auto.
  - intros w' W'. apply (attr_reads (inherit c) (a, vs)); auto.
Qed.

Lemma rd_attr_obj a : rd_attr (attr_obj a) = Some a.
Proof. destruct a as [a vs]. cbn. rewrite all_some_map; reflexivity. Qed.
Lemma rd_mod_obj m : rd_mod (mod_obj m) = Some m.
Proof. destruct m as [op a vs]. cbn. rewrite all_some_map; reflexivity. Qed.

Lemma mapM_value_octets l : mapM value_of (map octets l) = Ok (map VBytes l).
Proof. induction l; cbn; [reflexivity|]. rewrite IHl. reflexivity. Qed.


Lemma request_reads r w :
  sasl_ok r -> toWire (request_obj r) = Ok w ->
  exists o, reads ctx_message w o /\ read_request o = Some r /\ toWire o = toWire (request_obj r).
Proof.
  intros Hs W. destruct r as [v dn au| |b sc de si ti ty fi at_|dn ms|dn ats|dn|dn nr del ns|dn a v|i|n v].
  - (* bind *)
    destruct au as [pw|m cr]; cbn [request_obj toWire w_auth] in W.
    + exists (OBindReq 0x40 (VInt v) (VBytes dn) (ASimple (VBytes pw))). split; [|split; reflexivity].
      struct KBindReq W ps P T f Hf.
      contents ps [OInt KInteger 2 v; octets dn; OStr KOctet 0x80 pw] P Hf; [reflexivity|].
      repeat constructor; part.
    + exists (OBindReq 0x40 (VInt v) (VBytes dn) (ASasl (VBytes m) (pyopt VBytes cr))).
      split; [|split; [destruct cr; reflexivity|reflexivity]].
      struct KBindReq W ps P T f Hf.
      contents ps [OInt KInteger 2 v; octets dn;
                   OSeq KSeq 0x83 (octets m :: match cr with Some c => [octets c] | None => [] end)] P Hf.
      { destruct cr; reflexivity. }
      repeat constructor; [part|part|]. intros w0 W0.
      destruct cr as [[|c0 cr]|]; cbn [pyopt truthy sasl_ok] in *; [destruct Hs| |];
        (eapply reads_seq; try exact W0; try tagside; [cbn; auto|]; repeat constructor; part).
  - (* unbind *)
    exists (ONull KUnbind 0x42). split; [|split; reflexivity]. cbn [request_obj toWire] in W.
    apply Ok_inj in W. subst. apply reads_null; try tagside. cbn; auto.
  - (* search *)
    exists (OSearchReq 0x43 (VBytes b) (VInt sc) (VInt de) (VInt si) (VInt ti)
              (VInt (if ty then 255 else 0)) (filter_obj fi) (map VBytes at_)).
    split.
    2:{ split; [|destruct ty; reflexivity].
        cbn [read_request rd_bytes rd_int rd_flag]. rewrite read_filter_obj, all_some_map by reflexivity.
        destruct ty; reflexivity. }
    cbn [request_obj toWire] in W. struct KSearchReq W ps P T f Hf.
    contents ps [octets b; OInt KEnum 0x0A sc; OInt KEnum 0x0A de; OInt KInteger 2 si;
                 OInt KInteger 2 ti; OBool KBoolean 1 (if (if ty then 1 else 0) =? 0 then 0 else 255);
                 filter_obj fi; OSeq KSeq 0x10 (map octets at_)] P Hf.
    { cbn [bind value_of octets iter_of data_of]. rewrite mapM_value_octets. destruct ty; reflexivity. }
    constructor; [part|]. constructor; [part|]. constructor; [part|]. constructor; [part|].
    constructor; [part|]. constructor; [part|]. constructor; [|constructor; [|constructor]].
    + intros w0 W0. eapply filter_reads; [reflexivity| |exact W0]. split; reflexivity.
    + intros w0 W0. eapply octet_list_reads; try exact W0; try tagside. cbn; auto.
  - (* modify *)
    exists (OModReq 0x46 (VBytes dn) (map mod_obj ms)).
    split; [|split; [cbn; rewrite all_some_map by apply rd_mod_obj; reflexivity|reflexivity]].
    cbn [request_obj toWire] in W. struct KModReq W ps P T f Hf.
    contents ps [octets dn; OSeq KSeq 0x10 (map mod_obj ms)] P Hf; [reflexivity|].
    constructor; [part|]. constructor; [|constructor]. intros w0 W0.
    eapply reads_seq; try exact W0; try tagside; [cbn; auto|].
    apply Forall2_map_l, Forall2_map_l, Forall2_map_r, Forall2_diag, Forall_forall.
    intros x _ w1 W1. apply mod_reads; auto.
  - (* add *)
    exists (OAddReq 0x48 (VBytes dn) (OSeq KSeq 0x10 (map attr_obj ats))).
    split; [|split; [cbn; rewrite all_some_map by apply rd_attr_obj; reflexivity|reflexivity]].
    cbn [request_obj toWire] in W. struct KAddReq W ps P T f Hf.
    contents ps [octets dn; OSeq KSeq 0x10 (map attr_obj ats)] P Hf; [reflexivity|].
    constructor; [part|]. constructor; [|constructor]. intros w0 W0.
    eapply reads_seq; try exact W0; try tagside; [cbn; auto|].
    apply Forall2_map_l, Forall2_map_l, Forall2_map_r, Forall2_diag, Forall_forall.
    intros x _ w1 W1. apply attr_reads; auto.
  - (* delete *)
    exists (OStr KDelReq 0x4A dn). split; [|split; reflexivity]. cbn [request_obj toWire] in W.
    eapply reads_str; try exact W; try tagside. strc.
  - (* modify dn *)
    exists (OModDNReq 0x4C (VBytes dn) (VBytes nr) (VInt (if del then 255 else 0)) (pyopt VBytes ns)).
    split; [|split; [destruct del, ns; reflexivity|destruct del; reflexivity]].
    cbn [request_obj toWire] in W. struct KModDNReq W ps P T f Hf.
    contents ps ([octets dn; octets nr; OBool KBoolean 1 (if (if del then 1 else 0) =? 0 then 0 else 255)]
                 ++ match ns with Some s => [OStr KNewSuperior 0x80 s] | None => [] end) P Hf.
    { destruct del, ns; reflexivity. }
    apply Forall2_app; [repeat constructor; part|].
    destruct ns; cbn [pyopt pv_part]; repeat constructor. part.
  - (* compare *)
    exists (OCmpReq 0x4E (VBytes dn) (OAva KAva 0x10 (octets a) (octets v))). split; [|split; reflexivity].
    cbn [request_obj toWire] in W. struct KCmpReq W ps P T f Hf.
    contents ps [octets dn; OAva KAva 0x10 (octets a) (octets v)] P Hf; [reflexivity|].
    constructor; [part|]. constructor; [|constructor]. intros w0 W0.
    eapply ava_reads; try exact W0; try tagside. cbn; auto.
  - (* abandon *)
    exists (OInt KAbandon 0x50 i). split; [|split; reflexivity]. cbn [request_obj toWire] in W.
    eapply reads_int; try exact W; try tagside. cbn; auto.
  - (* extended *)
    exists (OExtReq 0x57 (VBytes n) (pyopt VBytes v)). split; [|split; [destruct v; reflexivity|reflexivity]].
    cbn [request_obj toWire] in W. struct KExtReq W ps P T f Hf.
    contents ps ([OStr KOctet 0x80 n] ++ match v with Some s => [OStr KOctet 0x81 s] | None => [] end) P Hf.
    { destruct v; reflexivity. }
    apply Forall2_app; [repeat constructor; part|].
    destruct v; cbn [pyopt pv_part]; repeat constructor. part.
Qed.


Lemma result_reads k tag r w :
  0 <= Z.lor STRUCTURED tag < 256 -> mask (Z.lor STRUCTURED tag) = tag ->
  lookup_id ctx_message tag = Some k ->
  In k [KSearchDone; KModResp; KAddResp; KDelResp; KModDNResp; KCmpResp] ->
  toWire (result_obj k tag r VNone) = Ok w -> reads ctx_message w (result_obj k tag r VNone).
Proof.
  intros Hi Hm L Hk W. destruct r as [code dn msg]. unfold result_obj in *.
  cbn [r_code r_dn r_msg toWire truthy] in *. rewrite app_nil_r in W.
  apply w_seq_inv in W as (ps & P & T). eapply reads_struct; eauto. intros f Hf.
  cbn [inherit ctx_message].
  assert (D : berDecodeMultiple lookup_id inherit (fromBER f) (concat ps)
                (Ctx T_BindRequest (Some ctx_ldap) None)
              = Ok [OInt KEnum 0x0A code; octets dn; octets msg]).
  { apply reads_decs; [|exact Hf]. eapply parts_read; [exact P|]. repeat constructor; part. }
  cbn [In] in Hk.
  repeat (destruct Hk as [<-|Hk]; [cbn [fromBER]; rewrite D; reflexivity|]). destruct Hk.
Qed.

Lemma mapM_map {A B C} (f : B -> res C) (g : A -> B) (h : A -> C) l :
  (forall x, f (g x) = Ok (h x)) -> mapM f (map g l) = Ok (map h l).
Proof. intros H. induction l; cbn; [reflexivity|]. rewrite H, IHl. reflexivity. Qed.

Lemma response_reads r w :
  creds_ok r -> toWire (response_obj r) = Ok w ->
  exists o, reads ctx_message w o /\ read_response o = Some r /\ toWire o = toWire (response_obj r).
Proof.
  intros Hs W.
  destruct r as [r cr|dn ats|r|us|r|r|r|r|r|r n v]; cbn [response_obj] in W;
  try (match type of W with toWire ?o = _ => exists o end;
       split; [apply result_reads; try exact W; try tagside; cbn; tauto|split; [destruct r; reflexivity|reflexivity]]; fail).
  - (* bind response *)
    exists (result_obj KBindResp 0x41 r (pyopt VBytes cr)).
    split; [|split; [destruct r, cr; reflexivity|reflexivity]]. destruct r as [code dn msg].
    unfold result_obj in *. cbn [r_code r_dn r_msg toWire] in *.
    struct KBindResp W ps P T f Hf.
    contents ps ([OInt KEnum 0x0A code; octets dn; octets msg] ++
                 match cr with Some c => [OStr KServerSaslCreds 0x87 c] | None => [] end) P Hf.
    { destruct cr; reflexivity. }
    apply Forall2_app; [repeat constructor; part|].
    destruct cr as [[|b cr]|]; cbn [pyopt truthy creds_ok] in *; [destruct Hs| |]; repeat constructor.
    part.
  - (* search entry *)
    exists (response_obj (SearchEntry dn ats)). cbn [response_obj].
    split; [|split; [cbn; rewrite all_some_map; [reflexivity|]; intros [a vs]; cbn;
             rewrite all_some_map; reflexivity|reflexivity]].
    cbn [toWire] in W. struct KSearchEntry W ps P T f Hf.
    contents ps [octets dn; OSeq KSeq 0x10 (map attr_obj ats)] P Hf.
    { cbn [bind nth_obj nth_error value_of octets data_of].
      rewrite (mapM_map _ _ (fun a => (VBytes (fst a), map VBytes (snd a)))); [reflexivity|].
      intros [a vs]. cbn. rewrite mapM_value_octets. reflexivity. }
    constructor; [part|]. constructor; [|constructor]. intros w0 W0.
    eapply reads_seq; try exact W0; try tagside; [cbn; auto|].
    apply Forall2_map_l, Forall2_map_l, Forall2_map_r, Forall2_diag, Forall_forall.
    intros [a vs] _ w1 W1. apply attr_reads; auto. cbn [fst snd] in W1.
    unfold attr_obj. cbn [fst snd toWire octets map].
    change (map toWire (map octets vs)) with (map toWire (map octets vs)).
    rewrite map_octets_wire. exact W1.
  - (* reference *)
    exists (OSearchRef 0x53 (map (OStr KString 0x04) us)).
    split; [|split; [cbn; rewrite all_some_map; reflexivity|reflexivity]].
    cbn [toWire] in W. struct KSearchRef W ps P T f Hf.
    contents ps (map (OStr KString 0x04) us) P Hf; [reflexivity|].
    apply Forall2_map_l, Forall2_map_l, Forall2_map_r, Forall2_diag, Forall_forall.
    intros u _. part.
  - (* extended *)
    exists (response_obj (ExtendedResponse r n v)). cbn [response_obj].
    split; [|split; [destruct r, n, v; reflexivity|reflexivity]]. destruct r as [code dn msg].
    cbn [r_code r_dn r_msg toWire] in *.
    struct KExtResp W ps P T f Hf.
    contents ps ([OInt KEnum 0x0A code; octets dn; octets msg] ++
                 match n with Some c => [OStr KRespName 0x8A c] | None => [] end ++
                 match v with Some c => [OStr KResponse 0x8B c] | None => [] end) P Hf.
    { destruct n, v; reflexivity. }
    apply Forall2_app; [repeat constructor; part|].
    apply Forall2_app.
    + destruct n; cbn [pyopt pv_part]; repeat constructor. part.
    + destruct v; cbn [pyopt pv_part]; repeat constructor. part.
Qed.

(** Controls *)
Definition control_read (c : control) : obj :=
  OControl 0x10 (VBytes (c_oid c))
    (pyopt (fun b : bool => VInt (if b then 255 else 0)) (c_critical c)) (pyopt VBytes (c_value c)).

Lemma control_reads c w :
  w_control 0x10 (VBytes (c_oid c)) (pyopt pybool (c_critical c)) (pyopt VBytes (c_value c)) = Ok w ->
  reads (Ctx T_Controls None (Some ctx_ldap)) w (control_read c).
Proof.
  destruct c as [oid cr v]. unfold control_read. cbn [c_oid c_critical c_value]. intros W.
  unfold w_control in W. struct KControl W ps P T f Hf.
  contents ps ([octets oid] ++
      match cr with Some b => [OBool KBoolean 1 (if (if b : bool then 1 else 0) =? 0 then 0 else 255)] | None => [] end ++
      match v with Some b => [octets b] | None => [] end) P Hf.
  { destruct cr as [[]|], v; reflexivity. }
  apply Forall2_app; [repeat constructor; part|].
  apply Forall2_app.
  - destruct cr; cbn [pyopt pv_part pybool]; repeat constructor. part.
  - destruct v; cbn [pyopt pv_part]; repeat constructor. part.
Qed.

Lemma message_reads i op cs w o :
  (forall w, toWire op = Ok w -> reads ctx_message w o) ->
  toWire (message_obj i op cs) = Ok w ->
  exists ws, reads ctx_top w
    (OMessage 0x10 (VInt i) o
       (option_map (map (fun c => (VBytes (c_oid c),
            pyopt (fun b : bool => VInt (if b then 255 else 0)) (c_critical c),
            pyopt VBytes (c_value c)))) cs)) /\ toWire op = Ok ws.
Proof.
  intros R W. unfold message_obj in W. cbn [toWire] in W.
  pose proof W as W2. apply w_seq_inv in W2 as (ps & P & T).
  assert (exists ws, toWire op = Ok ws) as (ws & E).
  { inversion P as [|? ? ? ? A P2]; subst. inversion P2 as [|? ? ? ? B P3]; subst. eauto. }
  exists ws. split; [|exact E]. clear P T ps.
  struct KMessage W ps P T f Hf.
  contents ps ([OInt KInteger 2 i; o] ++
      match cs with Some l => [OSeq KControls 0x80 (map control_read l)] | None => [] end) P Hf.
  { destruct cs; cbn [app bind nth_obj nth_error value_of option_map iter_of data_of guard];
      [|reflexivity].
    erewrite (mapM_map control_tuple control_read); [reflexivity|]. reflexivity. }
  apply Forall2_app.
  - constructor; [part|]. constructor; [exact R|constructor].
  - destruct cs as [l|]; cbn [option_map opt_part]; repeat constructor.
    intros w0 W0. apply w_seq_inv in W0 as (qs & Q & U).
    eapply (fun c tag ps w o => reads_struct c tag ps w KControls o); [ | | exact U | | ]; try tagside.
    intros g Hg. cbn [fromBER inherit ctx_message].
    contents qs (map control_read l) Q Hg; [reflexivity|].
    apply Forall2_map_l, Forall2_map_l, Forall2_map_r, Forall2_diag, Forall_forall.
    intros c _ w1 W1. cbn in W1. now apply control_reads.
Qed.

Lemma rd_controls l :
  all_some (map rd_control (map (fun c => (VBytes (c_oid c),
            pyopt (fun b : bool => VInt (if b then 255 else 0)) (c_critical c),
            pyopt VBytes (c_value c))) l)) = Some l.
Proof. apply all_some_map. intros [oid [[]|] [v|]]; reflexivity. Qed.

Lemma message_wire_same i op o cs :
  toWire o = toWire op ->
  toWire (OMessage 0x10 (VInt i) o
       (option_map (map (fun c => (VBytes (c_oid c),
            pyopt (fun b : bool => VInt (if b then 255 else 0)) (c_critical c),
            pyopt VBytes (c_value c)))) cs)) = toWire (message_obj i op cs).
Proof.
  intros E. unfold message_obj. cbn [toWire]. rewrite E.
  destruct cs as [l|]; cbn [option_map]; [|reflexivity].
  cbn [opt_part]. rewrite !map_map.
  match goal with |- context [map ?f l] => match goal with |- context [map ?g l] =>
    assert_fails (constr_eq f g);
    replace (map f l) with (map g l); [reflexivity|apply map_ext] end end.
  intros [oid [[]|] v]; reflexivity.
Qed.

Lemma request_message_reads i r cs w :
  sasl_ok r -> toWire (message_obj i (request_obj r) cs) = Ok w ->
  exists o, reads ctx_top w o /\ read_message read_request o = Some (i, r, cs) /\ toWire o = Ok w.
Proof.
  intros Hs W.
  assert (exists wo, toWire (request_obj r) = Ok wo) as (wo & Wo).
  { unfold message_obj in W. cbn [toWire] in W. apply w_seq_inv in W as (ps & P & T).
    inversion P as [|? ? ? ? A P2]; subst. inversion P2 as [|? ? ? ? B P3]; subst. eauto. }
  destruct (request_reads r wo Hs Wo) as (o & R & V & S).
  destruct (message_reads i (request_obj r) cs w o) as (ws & RM & _); [|exact W|].
  { intros w0 W0. rewrite Wo in W0. apply Ok_inj in W0. now subst. }
  eexists. split; [exact RM|]. split.
  - cbn [read_message rd_int]. rewrite V. destruct cs as [l|]; cbn [option_map]; [|reflexivity].
    now rewrite rd_controls.
  - rewrite (message_wire_same i (request_obj r)); assumption.
Qed.

Lemma response_message_reads i r cs w :
  creds_ok r -> toWire (message_obj i (response_obj r) cs) = Ok w ->
  exists o, reads ctx_top w o /\ read_message read_response o = Some (i, r, cs) /\ toWire o = Ok w.
Proof.
  intros Hs W.
  assert (exists wo, toWire (response_obj r) = Ok wo) as (wo & Wo).
  { unfold message_obj in W. cbn [toWire] in W. apply w_seq_inv in W as (ps & P & T).
    inversion P as [|? ? ? ? A P2]; subst. inversion P2 as [|? ? ? ? B P3]; subst. eauto. }
  destruct (response_reads r wo Hs Wo) as (o & R & V & S).
  destruct (message_reads i (response_obj r) cs w o) as (ws & RM & _); [|exact W|].
  { intros w0 W0. rewrite Wo in W0. apply Ok_inj in W0. now subst. }
  eexists. split; [exact RM|]. split.
  - cbn [read_message rd_int]. rewrite V. destruct cs as [l|]; cbn [option_map]; [|reflexivity].
    now rewrite rd_controls.
  - rewrite (message_wire_same i (response_obj r)); assumption.
Qed.

(** Without restriction: what is read is what the encoding keeps. *)
Lemma seen_request_ok r : sasl_ok (seen_request r).
Proof. destruct r as [? ? [?|? [[|]|]]| | | | | | | | |]; exact I. Qed.
Lemma seen_response_ok r : creds_ok (seen_response r).
Proof. destruct r as [? [[|]|]| | | | | | | | |]; exact I. Qed.
Lemma seen_request_wire r : toWire (request_obj (seen_request r)) = toWire (request_obj r).
Proof. destruct r as [? ? [?|? [[|]|]]| | | | | | | | |]; reflexivity. Qed.
Lemma seen_response_wire r : toWire (response_obj (seen_response r)) = toWire (response_obj r).
Proof. destruct r as [? [[|]|]| | | | | | | | |]; reflexivity. Qed.

Lemma request_message_seen i r cs w :
  toWire (message_obj i (request_obj r) cs) = Ok w ->
  exists o, reads ctx_top w o /\ read_message read_request o = Some (i, seen_request r, cs) /\ toWire o = Ok w.
Proof.
  intros W. apply request_message_reads; [apply seen_request_ok|].
  unfold message_obj in *. cbn [toWire] in *. now rewrite seen_request_wire.
Qed.
Lemma response_message_seen i r cs w :
  toWire (message_obj i (response_obj r) cs) = Ok w ->
  exists o, reads ctx_top w o /\ read_message read_response o = Some (i, seen_response r, cs) /\ toWire o = Ok w.
Proof.
  intros W. apply response_message_reads; [apply seen_response_ok|].
  unfold message_obj in *. cbn [toWire] in *. now rewrite seen_response_wire.
Qed.

Lemma request_message_roundtrip i r cs w rest :
  toWire (message_obj i (request_obj r) cs) = Ok w ->
  exists o, decode ctx_top (w ++ rest) = Ok (Some o, zlen w) /\
            read_message read_request o = Some (i, seen_request r, cs) /\ toWire o = Ok w.
Proof.
  intros W. destruct (request_message_seen i r cs w W) as (o & R & V & S).
  exists o. split; [now apply reads_decode|auto].
Qed.

Lemma response_message_roundtrip i r cs w rest :
  toWire (message_obj i (response_obj r) cs) = Ok w ->
  exists o, decode ctx_top (w ++ rest) = Ok (Some o, zlen w) /\
            read_message read_response o = Some (i, seen_response r, cs) /\ toWire o = Ok w.
Proof.
  intros W. destruct (response_message_seen i r cs w W) as (o & R & V & S).
  exists o. split; [now apply reads_decode|auto].
Qed.

(** Every encoding is one TLV, so its proper prefixes are recognised as incomplete (C04). *)
Lemma tlv_range ident content w :
  tlv ident content = Ok w -> exists i c, 0 <= i < 256 /\ tlv i c = Ok w.
Proof.
  intros T. exists (ident mod 256), content. split; [apply Z.mod_pos_bound; lia|].
  now rewrite tlv_mod.
Qed.

Lemma toWire_tlv o w : toWire o = Ok w -> exists i c, 0 <= i < 256 /\ tlv i c = Ok w.
Proof.
  assert (S : forall tag parts w, w_seq tag parts = Ok w -> exists i c, 0 <= i < 256 /\ tlv i c = Ok w).
  { intros tag parts w0 H. apply w_seq_inv in H as (ps & _ & T). eapply tlv_range; eauto. }
  destruct o; cbn [toWire]; intros W; try (eapply S; exact W).
  - eapply tlv_range; exact W.
  - unfold w_int in W. apply bind_ok in W as (e & _ & T). eapply tlv_range; eauto.
  - eapply tlv_range; exact W.
  - eapply (tlv_range tag []). unfold tlv. exact W.
Qed.

Lemma toWire_prefix o w p c :
  toWire o = Ok w -> proper_prefix p w -> p <> [] -> decode c p = Err EInsufficient.
Proof.
  intros W. apply toWire_tlv in W as (i & x & Hi & T). unfold decode.
  intros; eapply dec_prefix; eauto.
Qed.

(** ** Encoding is total below the limit of BER lengths *)
Definition limit : Z := 256 ^ 127.
Definition tot (r : res bytes) (n : Z) : Prop :=
  0 <= n /\ (n < limit -> exists w, r = Ok w /\ zlen w <= n).

Lemma int2berlen_len n w : int2berlen n = Ok w -> zlen w <= 128.
Proof.
  unfold int2berlen. destruct (Z.ltb_spec n 0); [congruence|].
  destruct (int2ber_unsigned n) as (e & E & Hne & Hv & Hmin); [lia|]. rewrite E. cbn [bind].
  destruct (Z.leb_spec n 127).
  - intros X; apply Ok_inj in X; subst w. destruct Hmin as [->|Hmin]; [lia|].
    destruct (Z.le_gt_cases (zlen e) 1); [lia|].
    assert (256 ^ 1 <= 256 ^ (zlen e - 1)) by (apply Z.pow_le_mono_r; lia).
    change (256 ^ 1) with 256 in *. lia.
  - destruct (negb (zlen e >? 0)) eqn:E1; [congruence|].
    destruct (negb (zlen e <=? 127)) eqn:E2; [congruence|].
    intros X; apply Ok_inj in X; subst w. rewrite zlen_cons. lia.
Qed.

Lemma tot_tlv i c n : zlen c <= n -> tot (tlv i c) (130 + n).
Proof.
  intros H. pose proof (zlen_nonneg c). split; [lia|]. intros L.
  destruct (int2berlen_total (zlen c)) as (l & E).
  { split; [lia|]. change (256 ^ 127) with limit. lia. }
  unfold tlv. rewrite E. cbn [bind]. eexists; split; [reflexivity|].
  apply int2berlen_len in E. rewrite zlen_cons, zlen_app. lia.
Qed.

Lemma tot_w_seq tag parts ns :
  Forall2 tot parts ns -> tot (w_seq tag parts) (130 + zsum ns).
Proof.
  intros F.
  assert (N : 0 <= zsum ns).
  { induction F as [|? ? ? ? (A & _)]; cbn; [lia|]. fold (zsum l'). lia. }
  split; [lia|]. intros L.
  assert (exists ps, mapM (fun p => p) parts = Ok ps /\ zlen (concat ps) <= zsum ns) as (ps & E & B).
  { assert (L2 : zsum ns < limit) by lia. clear L N.
    induction F as [|r n parts ns (A & H) F IH]; cbn [zsum fold_right] in *.
    - exists []. split; [reflexivity|]. rewrite zlen_nil. reflexivity.
    - fold (zsum ns) in *.
      assert (N : 0 <= zsum ns).
      { clear -F. induction F as [|? ? ? ? (A & _)]; cbn; [lia|]. fold (zsum l'). lia. }
      destruct H as (w & -> & Hw); [lia|]. destruct IH as (ps & E & B); [lia|].
      exists (w :: ps). cbn [mapM bind]. rewrite E. split; [reflexivity|].
      cbn [concat]. rewrite zlen_app. lia. }
  unfold w_seq. rewrite E. cbn [bind]. apply (tot_tlv _ _ _ B). exact L.
Qed.

Lemma tot_le r n m : tot r n -> n <= m -> tot r m.
Proof. intros (A & B) H. split; [lia|]. intros L. destruct B as (w & ? & ?); [lia|]. exists w; split; auto; lia. Qed.

Lemma int2ber_loop_len fuel s i acc w :
  int2ber_loop fuel s i acc = Ok w -> zlen w <= Z.of_nat fuel + 1 + zlen acc.
Proof.
  revert i acc. induction fuel as [|f IH]; intros i acc; cbn [int2ber_loop].
  - destruct (_ || _); [congruence|]. intros X; apply Ok_inj in X; subst. rewrite zlen_cons. lia.
  - destruct (_ || _).
    + intros X. apply IH in X. rewrite zlen_cons in X. lia.
    + intros X; apply Ok_inj in X; subst. rewrite zlen_cons. lia.
Qed.

Lemma tot_int tag z : tot (w_int tag (VInt z)) (pv_size (VInt z)).
Proof.
  unfold w_int, pv_size. destruct (int2ber_signed z) as (e & E & _). rewrite E. cbn [bind].
  apply (tot_le _ (130 + (Z.log2 (Z.abs z) + 2))); [|lia].
  apply tot_tlv. unfold int2ber in E. apply int2ber_loop_len in E. rewrite zlen_nil in E.
  pose proof (Z.log2_nonneg (Z.abs z)). lia.
Qed.
Lemma tot_str tag b : tot (w_str tag (VBytes b)) (pv_size (VBytes b)).
Proof. apply tot_tlv. lia. Qed.
Lemma tot_bool tag z : tot (w_bool tag (VInt z)) (pv_size (VInt z)).
Proof.
  apply (tot_le _ (130 + 1)); [apply tot_tlv; reflexivity|].
  unfold pv_size. pose proof (Z.log2_nonneg (Z.abs z)). lia.
Qed.

Lemma zsum_app a b : zsum (a ++ b) = zsum a + zsum b.
Proof. induction a; cbn; [reflexivity|]. fold (zsum (a0 ++ b)). fold (zsum a0). lia. Qed.

Lemma tot_map {A} (f : A -> res bytes) (g : A -> Z) l :
  Forall (fun x => tot (f x) (g x)) l -> Forall2 tot (map f l) (map g l).
Proof. intros H. apply Forall2_map_l, Forall2_map_r, Forall2_diag. exact H. Qed.

Ltac totlist :=
  repeat first
   [ apply Forall2_nil
   | apply Forall2_cons; [first [apply tot_int | apply tot_bool | apply tot_str]|] ].
Ltac zs := unfold zsum, pybool in *; cbn [fold_right map pv_size] in *.

Lemma filter_total f : tot (toWire (filter_obj f)) (obj_size (filter_obj f)).
Proof.
  induction f using filter_ind'; cbn [filter_obj toWire obj_size].
  - apply tot_w_seq, tot_map. apply Forall_map. exact H.
  - apply tot_w_seq, tot_map. apply Forall_map. exact H.
  - eapply tot_le; [apply tot_w_seq; constructor; [apply IHf|constructor]|]. zs; lia.
  - eapply tot_le; [apply tot_w_seq; totlist|]. cbn [octets obj_size]. zs. lia.
  - eapply tot_le.
    + apply tot_w_seq. constructor; [apply tot_str|]. constructor; [|constructor].
      apply tot_w_seq. apply tot_map with (g := obj_size). apply Forall_map, Forall_forall.
      intros [[] b] _; apply tot_str.
    + zs. lia.
  - eapply tot_le; [apply tot_w_seq; totlist|]. cbn [octets obj_size]. zs. lia.
  - eapply tot_le; [apply tot_w_seq; totlist|]. cbn [octets obj_size]. zs. lia.
  - apply tot_str.
  - eapply tot_le; [apply tot_w_seq; totlist|]. cbn [octets obj_size]. zs. lia.
  - eapply tot_le.
    + apply tot_w_seq. repeat apply Forall2_app.
      * instantiate (1 := match r with Some b => [pv_size (VBytes b)] | None => [] end).
        destruct r; cbn [option_map]; totlist.
      * instantiate (1 := match a with Some b => [pv_size (VBytes b)] | None => [] end).
        destruct a; cbn [option_map]; totlist.
      * totlist.
      * instantiate (1 := match d with Some b => [132] | None => [] end).
        destruct d as [[]|]; cbn [option_map]; repeat constructor; try lia;
        intros _; cbn [toWire w_bool]; eexists; split; try reflexivity;
        vm_compute; congruence.
    + destruct r, a, d; cbn [option_map app obj_size]; zs; lia.
Qed.

Lemma octets_total l : Forall2 tot (map (w_str 4) (map VBytes l)) (map pv_size (map VBytes l)).
Proof. apply tot_map. apply Forall_map, Forall_forall. intros; apply tot_str. Qed.

Lemma attr_total a : tot (toWire (attr_obj a)) (obj_size (attr_obj a)).
Proof.
  destruct a as [a vs]. cbn [attr_obj fst snd toWire obj_size map].
  apply tot_w_seq. constructor; [apply tot_str|]. constructor; [|constructor].
  apply tot_w_seq. apply tot_map with (g := obj_size). apply Forall_map, Forall_forall. intros; apply tot_str.
Qed.

Lemma request_total r : tot (toWire (request_obj r)) (obj_size (request_obj r)).
Proof.
  destruct r as [v dn au| |b sc de si ti ty fi at_|dn ms|dn ats|dn|dn nr del ns|dn a v|i|n v];
    try destruct au as [pw|m cr];
    cbn [request_obj toWire obj_size w_auth auth_size].
  - eapply tot_le; [apply tot_w_seq; totlist|]. zs; lia.
  - eapply tot_le; [apply tot_w_seq|].
    + constructor; [apply tot_int|]. constructor; [apply tot_str|]. constructor; [|constructor].
      instantiate (1 := 130 + (pv_size (VBytes m) + pv_size (pyopt VBytes cr))).
      destruct cr as [[|c cr]|]; cbn [pyopt truthy];
        (eapply tot_le; [apply tot_w_seq; totlist|]); zs; rewrite ?zlen_nil; lia.
    + zs; lia.
  - split; [lia|]. intros _. eexists; split; [reflexivity|]. cbn. vm_compute. congruence.
  - eapply tot_le; [apply tot_w_seq|].
    + do 6 (constructor; [first [apply tot_int|apply tot_bool|apply tot_str]|]).
      constructor; [apply filter_total|]. constructor; [|constructor].
      apply tot_w_seq, octets_total.
    + unfold pybool; zs; lia.
  - eapply tot_le; [apply tot_w_seq|].
    + constructor; [apply tot_str|]. constructor; [|constructor].
      apply tot_w_seq. apply tot_map with (g := obj_size). apply Forall_map, Forall_forall.
      intros [op at_ vs] _. unfold mod_obj. cbn [m_op m_attr m_values toWire obj_size map].
      apply tot_w_seq. constructor; [apply tot_int|]. constructor; [|constructor].
      apply (attr_total (at_, vs)).
    + zs. lia.
  - eapply tot_le; [apply tot_w_seq|].
    + constructor; [apply tot_str|]. constructor; [|constructor].
      apply tot_w_seq. rewrite map_map.
      instantiate (1 := map obj_size (map attr_obj ats)). rewrite map_map.
      apply tot_map. apply Forall_forall. intros x _. apply attr_total.
    + zs. lia.
  - apply tot_str.
  - eapply tot_le; [apply tot_w_seq|].
    + apply Forall2_app; [totlist|].
      instantiate (1 := match ns with Some s => [pv_size (VBytes s)] | None => [] end).
      destruct ns; cbn [pyopt pv_part]; totlist.
    + destruct ns; cbn [pyopt app pybool]; zs; lia.
  - eapply tot_le; [apply tot_w_seq|].
    + constructor; [apply tot_str|]. constructor; [|constructor].
      eapply tot_le; [apply tot_w_seq; totlist|]. reflexivity.
    + cbn [octets obj_size]. zs; lia.
  - apply tot_int.
  - eapply tot_le; [apply tot_w_seq|].
    + apply Forall2_app; [totlist|].
      instantiate (1 := match v with Some s => [pv_size (VBytes s)] | None => [] end).
      destruct v; cbn [pyopt pv_part]; totlist.
    + destruct v; cbn [pyopt app pybool]; zs; lia.
Qed.

Lemma response_total r : tot (toWire (response_obj r)) (obj_size (response_obj r)).
Proof.
  assert (RT : forall k tag r, tot (toWire (result_obj k tag r VNone)) (obj_size (result_obj k tag r VNone))).
  { intros k tag r0. unfold result_obj. cbn [toWire obj_size truthy app].
    eapply tot_le; [apply tot_w_seq; totlist|]. zs; lia. }
  destruct r as [r cr|dn ats|r|us|r|r|r|r|r|r n v]; try apply RT;
    unfold result_obj; cbn [response_obj result_obj toWire obj_size].
  - eapply tot_le; [apply tot_w_seq|].
    + apply Forall2_app; [totlist|].
      instantiate (1 := match cr with Some (b :: s) => [pv_size (VBytes (b :: s))] | _ => [] end).
      destruct cr as [[|]|]; cbn [pyopt truthy]; totlist.
    + destruct cr as [[|]|]; cbn [pyopt app]; zs; rewrite ?zlen_nil; lia.
  - eapply tot_le; [apply tot_w_seq|].
    + constructor; [apply tot_str|]. constructor; [|constructor]. apply tot_w_seq.
      rewrite map_map.
      instantiate (1 := map (fun '(a, vs) => 260 + pv_size a + zsum (map pv_size vs))
                          (map (fun a => (VBytes (fst a), map VBytes (snd a))) ats)).
      rewrite map_map. apply tot_map, Forall_forall. intros [a vs] _. cbn [fst snd].
      eapply tot_le; [apply tot_w_seq|].
      * constructor; [apply tot_str|]. constructor; [|constructor]. apply tot_w_seq, octets_total.
      * zs. lia.
    + zs. lia.
  - apply tot_w_seq. apply tot_map with (g := obj_size). apply Forall_map, Forall_forall.
    intros; apply tot_str.
  - eapply tot_le; [apply tot_w_seq|].
    + apply Forall2_app; [totlist|]. apply Forall2_app.
      * instantiate (1 := match n with Some s => [pv_size (VBytes s)] | None => [] end).
        destruct n; cbn [pyopt pv_part]; totlist.
      * instantiate (1 := match v with Some s => [pv_size (VBytes s)] | None => [] end).
        destruct v; cbn [pyopt pv_part]; totlist.
    + destruct n, v; cbn [pyopt app]; zs; lia.
Qed.

Lemma control_total c :
  tot (w_control 0x10 (VBytes (c_oid c)) (pyopt pybool (c_critical c)) (pyopt VBytes (c_value c)))
      (130 + pv_size (VBytes (c_oid c)) + pv_size (pyopt pybool (c_critical c)) + pv_size (pyopt VBytes (c_value c))).
Proof.
  destruct c as [oid cr v]. cbn [c_oid c_critical c_value]. unfold w_control.
  eapply tot_le; [apply tot_w_seq|].
  - apply Forall2_app; [totlist|]. apply Forall2_app.
    + instantiate (1 := match cr with Some b => [pv_size (pybool b)] | None => [] end).
      destruct cr; cbn [pyopt pv_part pybool]; totlist.
    + instantiate (1 := match v with Some s => [pv_size (VBytes s)] | None => [] end).
      destruct v; cbn [pyopt pv_part]; totlist.
  - destruct cr, v; cbn [pyopt app]; zs; lia.
Qed.

Lemma message_total i op cs :
  tot (toWire op) (obj_size op) ->
  tot (toWire (message_obj i op cs)) (obj_size (message_obj i op cs)).
Proof.
  intros H. unfold message_obj. cbn [toWire obj_size].
  eapply tot_le; [apply tot_w_seq|].
  - apply Forall2_app; [constructor; [apply tot_int|constructor; [exact H|constructor]]|].
    instantiate (1 := match cs with
      | Some l => [130 + zsum (map (fun '(t, cr, cv) => 130 + pv_size t + pv_size cr + pv_size cv)
                                 (map control_args l))]
      | None => [] end).
    destruct cs as [l|]; cbn [option_map opt_part]; constructor; [|constructor].
    apply tot_w_seq. apply tot_map. apply Forall_map, Forall_forall. intros c _.
    apply control_total.
  - destruct cs; cbn [option_map app]; zs; lia.
Qed.

Lemma value_total v : tot (toWire (value_obj v)) (obj_size (value_obj v)).
Proof.
  induction v using value_ind'; cbn [value_obj toWire obj_size].
  - split; [lia|]. intros _. destruct b; eexists; split; try reflexivity; vm_compute; congruence.
  - apply tot_int.
  - apply tot_str.
  - split; [lia|]. intros _. eexists; split; try reflexivity; vm_compute; congruence.
  - apply tot_int.
  - apply tot_w_seq, tot_map. apply Forall_map. exact H.
  - apply tot_w_seq, tot_map. apply Forall_map. exact H.
Qed.

Lemma value_encodes v : obj_size (value_obj v) < 256 ^ 127 -> exists w, toWire (value_obj v) = Ok w.
Proof. intros H. destruct (value_total v) as (_ & T). destruct (T H) as (w & E & _). eauto. Qed.

Lemma request_encodes i r cs :
  obj_size (message_obj i (request_obj r) cs) < 256 ^ 127 ->
  exists w, toWire (message_obj i (request_obj r) cs) = Ok w.
Proof.
  intros H. destruct (message_total i (request_obj r) cs (request_total r)) as (_ & T).
  destruct (T H) as (w & E & _). eauto.
Qed.

Lemma response_encodes i r cs :
  obj_size (message_obj i (response_obj r) cs) < 256 ^ 127 ->
  exists w, toWire (message_obj i (response_obj r) cs) = Ok w.
Proof.
  intros H. destruct (message_total i (response_obj r) cs (response_total r)) as (_ & T).
  destruct (T H) as (w & E & _). eauto.
Qed.

Lemma filter_encodes f :
  obj_size (filter_obj f) < 256 ^ 127 -> exists w, toWire (filter_obj f) = Ok w.
Proof. intros H. destruct (filter_total f) as (_ & T). destruct (T H) as (w & E & _). eauto. Qed.


Lemma filter_roundtrip f w rest :
  toWire (filter_obj f) = Ok w ->
  exists o, decode ctx_search (w ++ rest) = Ok (Some o, zlen w) /\ read_filter o = Some f.
Proof.
  intros W. exists (filter_obj f). split; [|apply read_filter_obj].
  apply reads_decode. eapply filter_reads; [reflexivity| |exact W]. split; reflexivity.
Qed.
