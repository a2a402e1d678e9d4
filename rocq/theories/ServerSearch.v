(** Proofs about what the server answers to searches. *)
From Coq Require Import Permutation.
From Verif Require Import Base BaseFacts BerModel LdapModel LdapSpec LdapProofs Utf8Model Utf8Proofs DnModel EntryModel EntryProofs SortFacts
  DeltaModel MatchModel UtilModel LdifModel LdifRound PwModel PwSpec PwProofs InmemModel InmemSpec InmemProofs ServerModel ServerSpec ServerProofs.

(** ** Fields and their octets *)
Lemma pv_of_bytes v b : pv_of v = VBytes b <-> to_bytes v = Ok b.
Proof.
  destruct v as [s|x]; cbn; [|split; congruence]. unfold pv_text. destruct (utf8_encode s); split; congruence.
Qed.
Lemma pv_of_all vs bs : map pv_of vs = map VBytes bs <-> same_octets vs bs.
Proof.
  unfold same_octets. revert bs. induction vs as [|v vs IH]; intros [|b bs]; cbn [map]; split; intros H; try discriminate; try constructor; try (inversion H; subst; fail); try reflexivity.
  - injection H as H _. now apply pv_of_bytes.
  - injection H as _ H. now apply IH.
  - inversion H as [|? ? ? ? E F]; subst. apply pv_of_bytes in E. rewrite E. f_equal. now apply IH.
Qed.
Definition attr_pv (a : bytes * list bytes) : pv * list pv := (VBytes (fst a), map VBytes (snd a)).
Lemma map_VBytes_inj a b : map VBytes a = map VBytes b -> a = b.
Proof. revert b. induction a as [|x a IH]; intros [|y b]; cbn [map]; intros H; try discriminate; [reflexivity|]. injection H as -> H. f_equal. auto. Qed.
Lemma attr_pv_inj l l' : map attr_pv l = map attr_pv l' -> l = l'.
Proof.
  revert l'. induction l as [|(k & bs) l IH]; intros [|(k' & bs') l']; cbn [map]; intros H; try discriminate; [reflexivity|].
  injection H as -> H1 H2. apply map_VBytes_inj in H1. subst. f_equal. auto.
Qed.

Lemma Forall2_In_l {A C} (P : A -> C -> Prop) l m x : Forall2 P l m -> In x l -> exists y, In y m /\ P x y.
Proof. induction 1 as [|a b l m H F IH]; [intros []|]. intros [->|I]; [exists b; split; [now left|exact H]|]. destruct (IH I) as (y & J & K). exists y. split; [now right|exact K]. Qed.
Lemma Forall2_In_r {A C} (P : A -> C -> Prop) l m y : Forall2 P l m -> In y m -> exists x, In x l /\ P x y.
Proof. induction 1 as [|a b l m H F IH]; [intros []|]. intros [->|I]; [exists a; split; [now left|exact H]|]. destruct (IH I) as (x & J & K). exists x. split; [now right|exact K]. Qed.

Lemma sort_to_bytes_perm vs l : sort_to_bytes vs = Ok l -> Permutation vs l.
Proof.
  unfold sort_to_bytes. destruct (mapR _ vs) as [ks|] eqn:K; [|discriminate]. cbn [bind]. intros H. apply Ok_inj in H. subst l.
  apply mapR_F2 in K. assert (E : map snd ks = vs).
  { induction K as [|x y a b E K IH]; [reflexivity|]. cbn [map]. apply bind_ok in E as (c & _ & E). apply Ok_inj in E. subst y. cbn [snd]. now rewrite IH. }
  rewrite <- E at 1. apply Permutation_map, sort_perm.
Qed.
Lemma sort_values_perm vs l : sort_values vs = Ok l -> Permutation vs l.
Proof. unfold sort_values. destruct (_ || _); [|discriminate]. intros H. apply Ok_inj in H. subst l. apply sort_perm. Qed.

Section Search.
  Variable lower : str -> str.
  Variable io : Z -> Z -> res Z.
  Variable sha : bytes -> bytes.
  Variable oc_first pw_first : bool.
  Variable odd_match : obj -> entry -> res bool.
  Variable text : exn -> bytes.
  Variable depth : nat.

  (** *** Attributes that were named *)
  Lemma find_key_bytes b e o : find_key lower (PBytes b) e = Ok o -> match o with
    | Some a => In a (e_attrs e) /\ names lower b a
    | None => forall a, In a (e_attrs e) -> ~ names lower b a
    end.
  Proof.
    unfold find_key, get_strings. destruct (utf8_decode b) as [s|] eqn:U; [|discriminate]. cbn [bind fold_right]. intros H. apply Ok_inj in H. subst o.
    destruct (dict_get lower (PBytes b) (e_attrs e)) as [a|] eqn:G1.
    - apply dict_get_some in G1 as (I & L). split; [exact I|]. exists (PBytes b). split; [reflexivity|congruence].
    - destruct (dict_get lower (PStr s) (e_attrs e)) as [a|] eqn:G2.
      + apply dict_get_some in G2 as (I & L). split; [exact I|]. exists (PStr s). split; [|congruence]. cbn. now apply utf8_iff.
      + intros a I (k & K & L). destruct k as [t|c]; cbn in K.
        * apply utf8_iff in K. rewrite U in K. apply Ok_inj in K. subst t. apply (dict_get_none lower (PStr s) (e_attrs e) G2 a I). congruence.
        * apply Ok_inj in K. subst c. apply (dict_get_none lower (PBytes b) (e_attrs e) G1 a I). congruence.
  Qed.
  Lemma picked_spec ks e : forall l sent, picked lower ks e = Ok l -> l = map attr_pv sent ->
    (forall k bs, In (k, bs) sent -> In (VBytes k) ks /\ exists a, In a (e_attrs e) /\ names lower k a /\ same_octets (s_vals a) bs) /\
    (forall k a, In (VBytes k) ks -> In a (e_attrs e) -> names lower k a -> exists bs, In (k, bs) sent).
  Proof.
    induction ks as [|k ks IH]; intros l sent H E; cbn [picked] in H.
    - apply Ok_inj in H. subst l. symmetry in E. apply map_eq_nil in E. subst sent. split; intros ? ? [].
    - assert (SKIP : picked lower ks e = Ok l -> (forall b, k = VBytes b -> forall a, In a (e_attrs e) -> ~ names lower b a) ->
        (forall k0 bs, In (k0, bs) sent -> In (VBytes k0) (k :: ks) /\ exists a, In a (e_attrs e) /\ names lower k0 a /\ same_octets (s_vals a) bs) /\
        (forall k0 a, In (VBytes k0) (k :: ks) -> In a (e_attrs e) -> names lower k0 a -> exists bs, In (k0, bs) sent)).
      { intros H0 NN. destruct (IH l sent H0 E) as (S & C). split.
        - intros k0 bs I. destruct (S k0 bs I) as (I0 & X). split; [now right|exact X].
        - intros k0 a [->|I0] Ia N; [exfalso; exact (NN k0 eq_refl a Ia N)|]. exact (C k0 a I0 Ia N). }
      destruct k as [|z|b]; try (apply SKIP; [exact H|discriminate]).
      unfold has_key, get_values in H. destruct (find_key lower (PBytes b) e) as [o|] eqn:F; [|discriminate]. cbn [bind] in H. apply find_key_bytes in F.
      destruct o as [a|]; [|apply SKIP; [exact H|intros b' [= <-]; exact F]]. destruct F as (Ia & Na).
      destruct (picked lower ks e) as [l0|] eqn:P; [|discriminate]. cbn [bind] in H. apply Ok_inj in H.
      destruct sent as [|(k0 & bs0) sent]; cbn [map] in E; [congruence|]. rewrite E in H. cbn [attr_pv fst snd] in H. injection H as <- H1 H2.
      destruct (IH l0 sent eq_refl H2) as (S & C). apply pv_of_all in H1. split.
      + intros k1 bs [[= <- <-]|I].
        * split; [now left|eauto].
        * destruct (S k1 bs I) as (I0 & X). split; [now right|exact X].
      + intros k1 a1 [[= <-]|I] I1 N1; [exists bs0; now left|]. destruct (C k1 a1 I I1 N1) as (bs & J). exists bs. now right.
  Qed.

  (** *** All attributes *)
  Lemma items_sound e l : items lower oc_first e = Ok l -> forall k vs, In (k, vs) l ->
    exists a, In a (e_attrs e) /\ lowv lower k = lowv lower (s_key a) /\ Permutation (s_vals a) vs.
  Proof.
    unfold items. intros H. apply bind_ok in H as (p & HA & H). apply bind_ok in H as (q & HB & H). apply Ok_inj in H. subst l.
    intros k vs I. apply in_app_iff in I as [I|I].
    - unfold oc_part in HA. apply bind_ok in HA as (ll & HL & HA). apply Ok_inj in HA. subst p. apply in_concat in I as (x & Ix & I).
      apply mapR_F2 in HL. destruct (Forall2_In_r _ _ _ _ HL Ix) as (k0 & _ & E). cbn beta in E.
      destruct (dict_get lower k0 (e_attrs e)) as [a|] eqn:G; [|apply Ok_inj in E; subst x; destruct I].
      destruct (s_vals a) as [|v0 r0] eqn:V; [apply Ok_inj in E; subst x; destruct I|]. apply bind_ok in E as (vs' & SV & E). apply Ok_inj in E. subst x.
      destruct I as [[= -> ->]|[]]. apply dict_get_some in G as (Ia & La). exists a. split; [exact Ia|]. split; [congruence|]. rewrite V. exact (sort_to_bytes_perm _ _ SV).
    - unfold other_part in HB. apply bind_ok in HB as (kb & HK & HB). apply mapR_F2 in HB. apply mapR_F2 in HK.
      destruct (Forall2_In_r _ _ _ _ HB I) as ((k0 & vs0) & I0 & E). cbn [fst snd] in E. apply bind_ok in E as (vs' & SV & E). apply Ok_inj in E. injection E as -> ->.
      apply filter_In in I0 as (I0 & _). apply in_map_iff in I0 as ((bb & kv) & Ekv & I0). cbn [snd] in Ekv. subst kv.
      apply (Permutation_in _ (Permutation_sym (sort_perm _ _))) in I0. destruct (Forall2_In_r _ _ _ _ HK I0) as (a & Ia & E).
      apply bind_ok in E as (b0 & _ & E). apply Ok_inj in E. injection E as _ E1 E2. exists a. split; [exact Ia|]. split; [congruence|]. rewrite E2. exact (sort_values_perm _ _ SV).
  Qed.
  Lemma items_sound_key e l : items lower oc_first e = Ok l -> forall k vs, In (k, vs) l ->
    exists a, In a (e_attrs e) /\ (k = s_key a \/ In k (oc_keys oc_first)) /\ Permutation (s_vals a) vs.
  Proof.
    unfold items. intros H. apply bind_ok in H as (p & HA & H). apply bind_ok in H as (q & HB & H). apply Ok_inj in H. subst l.
    intros k vs I. apply in_app_iff in I as [I|I].
    - unfold oc_part in HA. apply bind_ok in HA as (ll & HL & HA). apply Ok_inj in HA. subst p. apply in_concat in I as (x & Ix & I).
      apply mapR_F2 in HL. destruct (Forall2_In_r _ _ _ _ HL Ix) as (k0 & K0 & E). cbn beta in E.
      destruct (dict_get lower k0 (e_attrs e)) as [a|] eqn:G; [|apply Ok_inj in E; subst x; destruct I].
      destruct (s_vals a) as [|v0 r0] eqn:V; [apply Ok_inj in E; subst x; destruct I|]. apply bind_ok in E as (vs' & SV & E). apply Ok_inj in E. subst x.
      destruct I as [[= -> ->]|[]]. apply dict_get_some in G as (Ia & La). exists a. split; [exact Ia|]. split; [right; exact K0|]. rewrite V. exact (sort_to_bytes_perm _ _ SV).
    - unfold other_part in HB. apply bind_ok in HB as (kb & HK & HB). apply mapR_F2 in HB. apply mapR_F2 in HK.
      destruct (Forall2_In_r _ _ _ _ HB I) as ((k0 & vs0) & I0 & E). cbn [fst snd] in E. apply bind_ok in E as (vs' & SV & E). apply Ok_inj in E. injection E as -> ->.
      apply filter_In in I0 as (I0 & _). apply in_map_iff in I0 as ((bb & kv) & Ekv & I0). cbn [snd] in Ekv. subst kv.
      apply (Permutation_in _ (Permutation_sym (sort_perm _ _))) in I0. destruct (Forall2_In_r _ _ _ _ HK I0) as (a & Ia & E).
      apply bind_ok in E as (b0 & _ & E). apply Ok_inj in E. injection E as _ E1 E2. exists a. split; [exact Ia|]. split; [left; congruence|]. rewrite E2. exact (sort_values_perm _ _ SV).
  Qed.
  Hypothesis lower_oc : lower (S_ "objectClass") = S_ "objectclass".
  Lemma items_complete e l : keys_distinct lower e -> items lower oc_first e = Ok l -> forall a, In a (e_attrs e) -> s_vals a <> [] ->
    exists k vs, In (k, vs) l /\ lowv lower k = lowv lower (s_key a) /\ Permutation (s_vals a) vs.
  Proof.
    intros KD H a Ia NE. unfold items in H. apply bind_ok in H as (p & HA & H). apply bind_ok in H as (q & HB & H). apply Ok_inj in H. subst l.
    destruct (is_oc lower (s_key a)) eqn:OC.
    - assert (exists k, In k (oc_keys oc_first) /\ lowv lower (s_key a) = lowv lower k) as (k & Ik & Lk).
      { unfold is_oc, mem in OC. cbn [existsb] in OC. rewrite orb_false_r in OC. apply orb_true_iff in OC as [OC|OC]; apply pyval_eqb_eq in OC.
        - exists (PStr (S_ "objectClass")). split; [unfold oc_keys; destruct oc_first; cbn; auto|]. rewrite OC. cbn [lowv]. now rewrite lower_oc.
        - exists (PBytes (B "objectClass")). split; [unfold oc_keys; destruct oc_first; cbn; auto|]. rewrite OC. reflexivity. }
      pose proof (dict_get_nodup lower e a k KD Ia Lk) as G.
      unfold oc_part in HA. apply bind_ok in HA as (ll & HL & HA). apply Ok_inj in HA. subst p. apply mapR_F2 in HL.
      destruct (Forall2_In_l _ _ _ _ HL Ik) as (x & Ix & E). cbn beta in E. rewrite G in E. destruct (s_vals a) as [|v0 r0] eqn:V; [contradiction|].
      apply bind_ok in E as (vs & SV & E). apply Ok_inj in E. subst x. exists k, vs. split; [|split; [congruence|exact (sort_to_bytes_perm _ _ SV)]].
      apply in_app_iff. left. apply in_concat. eexists. split; [exact Ix|now left].
    - unfold other_part in HB. apply bind_ok in HB as (kb & HK & HB). apply mapR_F2 in HB. apply mapR_F2 in HK.
      destruct (Forall2_In_l _ _ _ _ HK Ia) as ((bb & kv) & I0 & E). apply bind_ok in E as (b0 & _ & E). apply Ok_inj in E. injection E as -> <-.
      apply (Permutation_in _ (sort_perm (fun x y => bytes_leb (fst x) (fst y)) kb)) in I0. apply (in_map snd) in I0. cbn [snd] in I0.
      assert (I1 : In (s_key a, s_vals a) (List.filter (fun kv => negb (is_oc lower (fst kv))) (map snd (sort_by (fun x y => bytes_leb (fst x) (fst y)) kb)))).
      { apply filter_In. split; [exact I0|]. cbn [fst]. now rewrite OC. }
      destruct (Forall2_In_l _ _ _ _ HB I1) as ((k & vs) & I2 & E). cbn [fst snd] in E. apply bind_ok in E as (vs' & SV & E). apply Ok_inj in E. injection E as <- <-.
      exists (s_key a), vs'. split; [apply in_app_iff; now right|]. split; [reflexivity|exact (sort_values_perm _ _ SV)].
  Qed.

  (** *** One entry sent *)
  Lemma star_spec k : is_star k = true <-> k = VBytes (B "*").
  Proof. destruct k as [|z|b]; cbn [is_star]; [split; discriminate|split; discriminate|]. rewrite bytes_eqb_eq. split; congruence. Qed.
  Lemma wants_dec attrs : (match attrs with [] => true | _ => false end = false /\ existsb is_star attrs = false /\ ~ wants_all attrs) \/
    (negb (match attrs with [] => true | _ => false end) && negb (existsb is_star attrs) = false /\ wants_all attrs).
  Proof.
    unfold wants_all. destruct attrs as [|k ks]; [right; split; [reflexivity|now left]|]. destruct (existsb is_star (k :: ks)) eqn:E.
    - right. split; [reflexivity|]. right. apply existsb_exists in E as (x & I & S). apply star_spec in S. now subst x.
    - left. split; [reflexivity|]. split; [reflexivity|]. intros [?|I]; [discriminate|].
      assert (existsb is_star (k :: ks) = true) by (apply existsb_exists; exists (VBytes (B "*")); split; [exact I|reflexivity]). congruence.
  Qed.
  Lemma entry_sent id attrs e o ev : keys_distinct lower e -> entry_response lower oc_first attrs e = Ok o -> queue id o = Ok ev ->
    exists i name sent, id = VInt i /\ sends ev i (SearchEntry name sent) /\ utf8_encode (dn_text (e_dn e)) = Ok name /\ shows lower attrs e sent.
  Proof.
    intros KD R Q. unfold entry_response in R. apply bind_ok in R as (l & HL & R). apply Ok_inj in R. subst o.
    destruct (queue_entry _ _ _ _ Q) as (i & name & sent & -> & SD). exists i, name, sent. split; [reflexivity|]. split; [exact SD|].
    destruct SD as (oct & TW & EV). unfold queue in Q. apply bind_ok in Q as (b & _ & Q). apply Ok_inj in Q. rewrite EV in Q. injection Q as Q1 Q2 _.
    split.
    { unfold pv_text in Q1. destruct (utf8_encode (dn_text (e_dn e))); [congruence|discriminate]. }
    assert (E : l = map attr_pv sent) by exact Q2. clear Q1 Q2 EV TW.
    destruct (wants_dec attrs) as [(W1 & W2 & NW)|(W & WA)].
    - rewrite W1, W2 in HL. cbn [negb andb] in HL. destruct (picked_spec attrs e l sent HL E) as (S & C). split.
      + intros k bs I. destruct (S k bs I) as (I0 & a & Ia & Na & SO). split; [now right|]. exists a, (s_vals a). split; [exact Ia|]. split; [exact Na|]. split; [reflexivity|exact SO].
      + intros a v Ia Iv. split; [intros WA; contradiction|]. intros _ k Ik Nk. exact (C k a Ik Ia Nk).
    - rewrite W in HL. apply bind_ok in HL as (its & HI & HL). apply Ok_inj in HL. rewrite <- HL in E. clear HL l.
      assert (F : Forall2 (fun kv s => to_bytes (fst kv) = Ok (fst s) /\ same_octets (snd kv) (snd s)) its sent).
      { clear HI. revert sent E. induction its as [|(k & vs) its IH]; intros [|(k' & bs) sent] E; cbn [map] in E; try discriminate; constructor.
        - injection E as E1 E2 _. cbn [fst snd] in *. split; [now apply pv_of_bytes|now apply pv_of_all].
        - injection E as _ _ E. now apply IH. }
      split.
      + intros k bs I. split; [now left|]. destruct (Forall2_In_r _ _ _ _ F I) as ((k0 & vs) & I0 & TB & SO). cbn [fst snd] in TB, SO.
        destruct (items_sound e its HI k0 vs I0) as (a & Ia & La & P). exists a, vs. split; [exact Ia|]. split; [exists k0; auto|]. split; [|exact SO].
        intros v. split; intros J; [exact (Permutation_in _ (Permutation_sym P) J)|exact (Permutation_in _ P J)].
      + intros a v Ia Iv. split; [intros _|intros NW; contradiction]. assert (NE : s_vals a <> []) by (intros X; rewrite X in Iv; destruct Iv).
        destruct (items_complete e its KD HI a Ia NE) as (k0 & vs & I0 & La & P).
        destruct (Forall2_In_l _ _ _ _ F I0) as ((k & bs) & I & TB & SO). cbn [fst snd] in TB, SO. apply (Permutation_in _ P) in Iv.
        destruct (Forall2_In_l _ _ _ _ SO Iv) as (b0 & Ib & TV). exists k, bs, b0. split; [exact I|]. split; [exists k0; auto|]. split; [exact TV|exact Ib].
  Qed.

  (** *** Plain entries can be sent *)
  Lemma encodable_all vs : (forall v, In v vs -> exists b, to_bytes v = Ok b) -> exists bs, map pv_of vs = map VBytes bs.
  Proof.
    induction vs as [|v vs IH]; intros H; [exists []; reflexivity|]. destruct (H v (or_introl eq_refl)) as (b & E). apply pv_of_bytes in E.
    destruct IH as (bs & E'); [intros; apply H; now right|]. exists (b :: bs). cbn [map]. now rewrite E, E'.
  Qed.
  Lemma plain_response attrs e : plain_entry e -> names_utf8 attrs -> exists name sent, entry_response lower oc_first attrs e = Ok (response_obj (SearchEntry name sent)).
  Proof.
    intros ((name & DN) & PE) NU. unfold entry_response, pv_text. rewrite DN.
    assert (exists sent, (if negb (match attrs with [] => true | _ => false end) && negb (existsb is_star attrs) then picked lower attrs e
       else do l <- items lower oc_first e; Ok (map pair_pv l)) = Ok (map attr_pv sent)) as (sent & ->); [|exists name, sent; reflexivity].
    destruct (negb _ && negb _).
    - induction attrs as [|k ks IH]; [exists []; reflexivity|]. destruct IH as (sent & IH); [intros b I; apply NU; now right|]. cbn [picked].
      destruct k as [|z|b]; try (exists sent; exact IH). destruct (NU b (or_introl eq_refl)) as (t & U).
      assert (exists o, find_key lower (PBytes b) e = Ok o) as (o & F).
      { unfold find_key, get_strings. rewrite U. cbn [bind]. eauto. }
      unfold has_key, get_values. rewrite F. cbn [bind]. pose proof (find_key_bytes b e o F) as FK. destruct o as [a|]; [|exists sent; exact IH].
      destruct FK as (Ia & _). destruct (PE a Ia) as (_ & VE & _). destruct (encodable_all (s_vals a) VE) as (bs & ->). rewrite IH. cbn [bind].
      exists ((b, bs) :: sent). reflexivity.
    - assert (exists l, items lower oc_first e = Ok l) as (l & HI).
      { unfold items, oc_part, other_part.
        destruct (mapR_ex (fun k => match dict_get lower k (e_attrs e) with
             | Some a => match s_vals a with [] => Ok [] | _ => do vs <- sort_to_bytes (s_vals a); Ok [(k, vs)] end | None => Ok [] end) (oc_keys oc_first)) as (l1 & E1).
        { intros k _. destruct (dict_get lower k (e_attrs e)) as [a|] eqn:G; [|eauto]. apply dict_get_some in G as (Ia & _). destruct (PE a Ia) as (_ & VE & _).
          destruct (sort_to_bytes_ok (s_vals a) VE) as (vs & SV & _). destruct (s_vals a); [eauto|]. rewrite SV. cbn [bind]. eauto. }
        rewrite E1. cbn [bind].
        destruct (mapR_ex (fun a => do b <- to_bytes (s_key a); Ok (b, (s_key a, s_vals a))) (e_attrs e)) as (kb & E2).
        { intros a Ia. destruct (PE a Ia) as ((b & ->) & _). cbn [bind]. eauto. }
        rewrite E2. cbn [bind]. apply mapR_F2 in E2.
        match goal with |- context [mapR ?g ?x] => destruct (mapR_ex g x) as (l2 & E3) end.
        { intros (k & vs) I0. apply filter_In in I0 as (I0 & _). apply in_map_iff in I0 as ((bb & kv) & Ekv & I0). cbn [snd] in Ekv. subst kv.
          apply (Permutation_in _ (Permutation_sym (sort_perm _ _))) in I0. destruct (Forall2_In_r _ _ _ _ E2 I0) as (a & Ia & E).
          apply bind_ok in E as (b0 & _ & E). apply Ok_inj in E. injection E as _ <- <-. cbn [snd fst]. destruct (PE a Ia) as (_ & _ & U).
          assert (exists l, sort_values (s_vals a) = Ok l) as (l & ->); [|cbn [bind]; eauto].
          unfold sort_values. replace (all_str (s_vals a) || all_bytes (s_vals a)) with true; [eauto|]. symmetry. apply orb_true_iff. destruct U as [U|U].
          - right. apply forallb_forall. intros v J. destruct (U v J) as (b & ->). reflexivity.
          - left. apply forallb_forall. intros v J. destruct (U v J) as (b & ->). reflexivity. }
        rewrite E3. cbn [bind]. eauto. }
      rewrite HI. cbn [bind].
      assert (G : forall k vs, In (k, vs) l -> exists a, In a (e_attrs e) /\ Permutation (s_vals a) vs /\ exists b, to_bytes k = Ok b).
      { intros k vs I0. destruct (items_sound_key e l HI k vs I0) as (a & Ia & K & P). exists a. split; [exact Ia|]. split; [exact P|].
        destruct K as [->|K]; [exact (proj1 (PE a Ia))|]. unfold oc_keys in K. destruct oc_first; destruct K as [<-|[<-|[]]]; vm_compute; eauto. }
      clear HI. induction l as [|(k & vs) l IH]; [exists []; reflexivity|]. destruct IH as (sent & IH); [intros; apply G; now right|].
      destruct (G k vs (or_introl eq_refl)) as (a & Ia & P & b & KB). destruct (PE a Ia) as (_ & VE & _).
      destruct (encodable_all vs) as (bs & EB); [intros v J; apply VE; exact (Permutation_in _ (Permutation_sym P) J)|].
      exists ((b, bs) :: sent). cbn [map]. apply Ok_inj in IH. rewrite IH. unfold pair_pv. cbn [fst snd]. apply pv_of_bytes in KB. rewrite KB, EB. reflexivity.
  Qed.
  Lemma plain_queued i attrs e : plain_entry e -> names_utf8 attrs ->
    (forall o, entry_response lower oc_first attrs e = Ok o -> obj_size (OMessage (class_tag KMessage) (VInt i) o None) < 256 ^ 127) ->
    exists o ev, entry_response lower oc_first attrs e = Ok o /\ queue (VInt i) o = Ok ev.
  Proof.
    intros PE NU SZ. destruct (plain_response attrs e PE NU) as (name & sent & R). specialize (SZ _ R). exists (response_obj (SearchEntry name sent)).
    destruct (response_encodes i (SearchEntry name sent) None SZ) as (w & W). unfold message_obj in W. cbn [option_map] in W. unfold queue. rewrite W. cbn [bind]. eauto.
  Qed.

  (** *** The walk *)
  Notation sent_for := (sent_for lower odd_match).
  Notation heap_keys := (heap_keys lower).

  Lemma visit_found i f attrs h r w : heap_keys h -> let (w', x) := visit lower oc_first odd_match (VInt i) f attrs h r w in
    (w' = w) \/ (exists ev, w' = w ++ [ev] /\ x = None /\ sent_for i f attrs h r ev).
  Proof.
    intros HK. unfold visit. destruct (deref h r) as [n|] eqn:D; cbn [bind]; [|now left]. apply deref_ok in D.
    destruct (matchf lower odd_match (n_entry n) f) as [[|]|] eqn:M; cbn [bind]; [|left; apply app_nil_r|now left].
    destruct (entry_response lower oc_first attrs (n_entry n)) as [o|] eqn:R; cbn [bind]; [|now left].
    destruct (queue (VInt i) o) as [ev|] eqn:Q; cbn [bind]; [|now left]. right. exists ev. split; [reflexivity|]. split; [reflexivity|].
    destruct (entry_sent (VInt i) attrs (n_entry n) o ev (HK r n D) R Q) as (j & name & sent & [= <-] & SD & U & S).
    exists n, name, sent. auto.
  Qed.
  Lemma walk_found i f attrs scope h r sc : heap_keys h -> scope = VInt (match sc with ScBase => 0 | ScOne => 1 | ScSub => 2 end) ->
    forall ev, In ev (fst (walk lower oc_first odd_match depth (VInt i) f attrs scope h r)) -> exists c, in_scope h sc r c /\ sent_for i f attrs h c ev.
  Proof.
    intros HK ->.
    assert (V : forall c w, in_scope h sc r c -> (forall ev, In ev w -> exists c, in_scope h sc r c /\ sent_for i f attrs h c ev) ->
      forall ev, In ev (fst (visit lower oc_first odd_match (VInt i) f attrs h c w)) -> exists c, in_scope h sc r c /\ sent_for i f attrs h c ev).
    { intros c w SC W ev. pose proof (visit_found i f attrs h c w HK) as F. destruct (visit lower oc_first odd_match (VInt i) f attrs h c w) as (w' & x).
      cbn [fst]. destruct F as [->|(ev' & -> & _ & SF)]; [apply W|]. intros I. apply in_app_iff in I as [I|[<-|[]]]; [now apply W|eauto]. }
    unfold walk. destruct sc.
    - apply V; [reflexivity|intros ? []].
    - destruct (nth_error h r) as [n|] eqn:N; [|intros ? []].
      apply (each_child_inv _ (fun w => forall ev, In ev w -> exists c, in_scope h ScOne r c /\ sent_for i f attrs h c ev)); [|intros ? []].
      intros c w I W. apply V; [|exact W]. cbn [in_scope]. unfold kids. rewrite N. exact I.
    - apply (subtree_inv _ h (fun w => forall ev, In ev w -> exists c, in_scope h ScSub r c /\ sent_for i f attrs h c ev)); [|intros ? []].
      intros c w I W. apply V; [exact I|exact W].
  Qed.
  Lemma walk_other scope id f attrs h r : (forall z, scope = VInt z -> scope_of z = None) ->
    walk lower oc_first odd_match depth id f attrs scope h r = ([], Some (ELdap 2)).
  Proof.
    intros H. unfold walk. destruct scope as [|[|[p|[p|p|]|]|p]|]; try reflexivity; specialize (H _ eq_refl); cbn in H; discriminate.
  Qed.

  Notation handle := (handle lower io sha oc_first pw_first odd_match text depth).
  Lemma search_sends s salt tag i t base scope da sl tl ty f attrs cs s' w : i <> 0 -> ~ (base = VBytes [] /\ scope = VInt 0) -> heap_keys (v_heap s) ->
    handle s salt (OMessage tag (VInt i) (OSearchReq t base scope da sl tl ty f attrs) cs) = Ok (s', w) ->
    s' = s /\ exists es fin, w = es ++ [fin] /\ forall ev, In ev es -> exists z sc d r c, scope = VInt z /\ scope_of z = Some sc /\
      to_dn io base = Ok d /\ lookup lower depth (v_heap s) (v_root s) d = Ok r /\ in_scope (v_heap s) sc r c /\ sent_for i f attrs (v_heap s) c ev.
  Proof.
    intros N NR HK H. assert (N' : VInt i <> VInt 0) by congruence.
    rewrite (handle_eq lower io sha oc_first pw_first odd_match text depth s salt tag (VInt i) (OSearchReq t base scope da sl tl ty f attrs) cs RSearch eq_refl N') in H.
    cbn [handler] in H. unfold handle_search in H.
    assert (ND : match base, scope with VBytes [], VInt 0 => is_match_all f | _, _ => Ok false end = Ok false).
    { destruct base as [|z|[|c b]]; try reflexivity. destruct scope as [|[| |]|]; try reflexivity. exfalso. apply NR. auto. }
    rewrite ND in H. unfold try, raise, give in H.
    assert (NO : forall o, exists es fin, [] ++ final (VInt i) (Some o) = es ++ [fin] /\ forall ev, In ev es -> exists z sc d r c, scope = VInt z /\ scope_of z = Some sc /\
      to_dn io base = Ok d /\ lookup lower depth (v_heap s) (v_root s) d = Ok r /\ in_scope (v_heap s) sc r c /\ sent_for i f attrs (v_heap s) c ev).
    { intros o. destruct (final_one (VInt i) o) as (ev & -> & _). exists [], ev. split; [reflexivity|intros ? []]. }
    destruct (checkControls cs); [|apply Ok_inj in H; injection H as <- <-; split; [reflexivity|apply NO]].
    destruct (to_dn io base) as [d|] eqn:D; [|apply Ok_inj in H; injection H as <- <-; split; [reflexivity|apply NO]].
    destruct (lookup lower depth (v_heap s) (v_root s) d) as [r|] eqn:L; [|apply Ok_inj in H; injection H as <- <-; split; [reflexivity|apply NO]].
    assert (WF : forall ev, In ev (fst (walk lower oc_first odd_match depth (VInt i) f attrs scope (v_heap s) r)) ->
       exists z sc d0 r0 c, scope = VInt z /\ scope_of z = Some sc /\ Ok d = Ok d0 /\ lookup lower depth (v_heap s) (v_root s) d0 = Ok r0 /\
         in_scope (v_heap s) sc r0 c /\ sent_for i f attrs (v_heap s) c ev).
    { intros ev I.
      assert (SC : (exists z sc, scope = VInt z /\ scope_of z = Some sc /\ z = match sc with ScBase => 0 | ScOne => 1 | ScSub => 2 end) \/ (forall z, scope = VInt z -> scope_of z = None)).
      { destruct scope as [|z|]; try (right; discriminate). destruct (scope_of z) as [sc|] eqn:S.
        - left. exists z, sc. split; [reflexivity|]. split; [exact S|]. unfold scope_of in S.
          destruct (Z.eqb_spec z 0); [now injection S as <-|]. destruct (Z.eqb_spec z 1); [now injection S as <-|]. destruct (Z.eqb_spec z 2); [now injection S as <-|discriminate].
        - right. congruence. }
      destruct SC as [(z & sc & -> & S & Z)|NS]; [|rewrite (walk_other scope _ _ _ _ _ NS) in I; destruct I].
      assert (ZZ : VInt z = VInt (match sc with ScBase => 0 | ScOne => 1 | ScSub => 2 end)) by now rewrite Z.
      destruct (walk_found i f attrs (VInt z) (v_heap s) r sc HK ZZ ev I) as (c & IC & SF).
      exists z, sc, d, r, c. split; [reflexivity|]. split; [exact S|]. split; [reflexivity|]. split; [exact L|]. split; [exact IC|exact SF]. }
    destruct (walk lower oc_first odd_match depth (VInt i) f attrs scope (v_heap s) r) as (w0 & [x|]); cbn [fst] in WF; apply Ok_inj in H; injection H as <- <-;
      (split; [reflexivity|]); match goal with |- context [queue (VInt i) ?o] => destruct (final_one (VInt i) o) as (fev & FE & _) end; unfold final in FE; rewrite FE; exists w0, fev; split; auto.
  Qed.

  (** *** All that match are sent, once each *)
  Definition sendable (i : Z) (f : obj) (attrs : list pv) (e : entry) : Prop :=
    matchf lower odd_match e f = Ok false \/
    (matchf lower odd_match e f = Ok true /\ exists o ev, entry_response lower oc_first attrs e = Ok o /\ queue (VInt i) o = Ok ev).
  Section Tree.
    Variables (h : heap) (L : list ref).
    Hypothesis T : tree h L.
    Variables (i : Z) (f : obj) (attrs : list pv).
    Definition step (c : ref) : list sevent :=
      match (do n <- deref h c; do b <- matchf lower odd_match (n_entry n) f;
             if b then do o <- entry_response lower oc_first attrs (n_entry n); do ev <- queue (VInt i) o; Ok [ev] else Ok []) with
      | Ok l => l | Err _ => [] end.
    Definition found (c : ref) : bool :=
      match (do n <- deref h c; matchf lower odd_match (n_entry n) f) with Ok b => b | Err _ => false end.
    Lemma visit_ok c w : In c L -> (forall n, nth_error h c = Some n -> sendable i f attrs (n_entry n)) ->
      visit lower oc_first odd_match (VInt i) f attrs h c w = (w ++ step c, None).
    Proof.
      intros I SD. destruct (t_node h L T c I) as (n & N). unfold visit, step. rewrite (proj2 (deref_ok h c n) N). cbn [bind].
      destruct (SD n N) as [M|(M & o & ev & R & Q)]; rewrite M; cbn [bind]; [reflexivity|]. rewrite R. cbn [bind]. rewrite Q. reflexivity.
    Qed.
    Lemma step_found c : In c L -> heap_keys h -> (forall n, nth_error h c = Some n -> sendable i f attrs (n_entry n)) ->
      if found c then exists ev, step c = [ev] /\ sent_for i f attrs h c ev else step c = [].
    Proof.
      intros I HK SD. destruct (t_node h L T c I) as (n & N). unfold step, found. rewrite (proj2 (deref_ok h c n) N). cbn [bind].
      destruct (SD n N) as [M|(M & o & ev & R & Q)]; rewrite M; cbn [bind]; [reflexivity|]. rewrite R. cbn [bind]. rewrite Q. exists ev. split; [reflexivity|].
      destruct (entry_sent (VInt i) attrs (n_entry n) o ev (HK c n N) R Q) as (j & name & sent & [= <-] & S1 & S2 & S3). exists n, name, sent. auto.
    Qed.
    Lemma each_child_steps cs : forall w, (forall c, In c (map snd cs) -> In c L /\ forall n, nth_error h c = Some n -> sendable i f attrs (n_entry n)) ->
      each_child (visit lower oc_first odd_match (VInt i) f attrs h) cs w = (w ++ concat (map step (map snd cs)), None).
    Proof.
      induction cs as [|(k & c) cs IH]; intros w F; cbn [each_child map snd concat]; [now rewrite app_nil_r|].
      destruct (F c (or_introl eq_refl)) as (I & S). rewrite (visit_ok c w I S), IH; [now rewrite app_assoc|]. intros c' J. apply F. now right.
    Qed.
    Lemma walk_exact r sc : In r L -> shallow h L r depth -> heap_keys h ->
      (forall c n, in_scope h sc r c -> nth_error h c = Some n -> sendable i f attrs (n_entry n)) ->
      exists es cs, walk lower oc_first odd_match depth (VInt i) f attrs (VInt (match sc with ScBase => 0 | ScOne => 1 | ScSub => 2 end)) h r = (es, None) /\
        NoDup cs /\ (forall c, In c cs <-> in_scope h sc r c /\ found c = true) /\ Forall2 (sent_for i f attrs h) cs es.
    Proof.
      intros I Sh HK SD. destruct (t_node h L T r I) as (n & N).
      assert (IN : forall c, in_scope h sc r c -> In c L).
      { intros c. destruct sc; cbn [in_scope]; [intros ->; exact I|apply (t_kids h L T r c I)|intros B; exact (below_in h L T r c B I)]. }
      assert (G : forall l, NoDup l -> (forall c, In c l <-> in_scope h sc r c) -> exists cs, NoDup cs /\ (forall c, In c cs <-> in_scope h sc r c /\ found c = true) /\
        Forall2 (sent_for i f attrs h) cs (concat (map step l))).
      { intros l ND E. exists (List.filter found l). split; [now apply NoDup_filter|]. split; [intros c; rewrite filter_In, E; reflexivity|].
        assert (E' : forall c, In c l -> in_scope h sc r c) by (intros c J; now apply E). clear E ND. induction l as [|c l IH]; [constructor|].
        cbn [map concat List.filter]. assert (SC : in_scope h sc r c) by (apply E'; now left).
        pose proof (step_found c (IN c SC) HK (fun m M => SD c m SC M)) as SF.
        assert (IH' : Forall2 (sent_for i f attrs h) (List.filter found l) (concat (map step l))) by (apply IH; intros c' J; apply E'; now right).
        destruct (found c); [destruct SF as (ev & -> & SF); constructor; assumption|rewrite SF; exact IH']. }
      unfold walk. destruct sc; cbn [in_scope] in *.
      - destruct (G [r]) as (cs & N1 & C & F2); [repeat constructor; intros []|intros c; cbn; split; [intros [<-|[]]; reflexivity|intros ->; now left]|].
        rewrite (visit_ok r [] I (fun m M => SD r m eq_refl M)). cbn [map concat] in F2. rewrite app_nil_r in F2. exists (step r), cs. auto.
      - rewrite N. assert (KD : map snd (n_children n) = kids h r) by (unfold kids; now rewrite N).
        destruct (G (kids h r)) as (cs & N1 & C & F2); [exact (kids_nodup h L T r I)|reflexivity|].
        rewrite each_child_steps.
        + rewrite KD. cbn [app]. exists (concat (map step (kids h r))), cs. auto.
        + rewrite KD. intros c J. split; [now apply IN|]. intros m M. now apply (SD c m).
      - destruct (subtree_visits h L T (list sevent) (visit lower oc_first odd_match (VInt i) f attrs h) (fun c w => w ++ step c) depth r [] I) as (l & E & ND & S).
        + intros c B. unfold dlen. pose proof (IN c B) as Ic. destruct (t_node h L T c Ic) as (m & Mm). rewrite Mm, N. exact (Sh c n m Ic N Mm).
        + intros c w B. apply visit_ok; [now apply IN|]. intros m M. now apply (SD c m).
        + destruct (G l ND S) as (cs & N1 & C & F2). rewrite E. exists (concat (map step l)), cs. split; [|auto]. f_equal.
          assert (X : forall w, fold_left (fun w c => w ++ step c) l w = w ++ concat (map step l)); [|apply (X [])].
          clear. induction l as [|c l IH]; intros w; cbn [fold_left map concat]; [now rewrite app_nil_r|]. rewrite IH. now rewrite <- app_assoc.
    Qed.
    Lemma found_spec c : In c L -> found c = true <-> exists n, nth_error h c = Some n /\ matchf lower odd_match (n_entry n) f = Ok true.
    Proof.
      intros I. destruct (t_node h L T c I) as (n & N). unfold found. rewrite (proj2 (deref_ok h c n) N). cbn [bind]. split.
      - destruct (matchf lower odd_match (n_entry n) f) as [b|] eqn:M; [intros ->|discriminate]. exists n. auto.
      - intros (m & M & E). assert (m = n) by congruence. subst m. now rewrite E.
    Qed.
  End Tree.
  Lemma search_exactly s salt tag i t base sc da sl tl ty f attrs cs L d r : i <> 0 -> ~ (base = VBytes [] /\ sc = ScBase) ->
    no_critical cs -> tree (v_heap s) L -> heap_keys (v_heap s) -> to_dn io base = Ok d -> lookup lower depth (v_heap s) (v_root s) d = Ok r -> In r L ->
    shallow (v_heap s) L r depth -> (forall c n, in_scope (v_heap s) sc r c -> nth_error (v_heap s) c = Some n -> sendable i f attrs (n_entry n)) ->
    exists es fin found, handle s salt (OMessage tag (VInt i) (OSearchReq t base (VInt (match sc with ScBase => 0 | ScOne => 1 | ScSub => 2 end)) da sl tl ty f attrs) cs) = Ok (s, es ++ [fin]) /\
      NoDup found /\ (forall c, In c found <-> in_scope (v_heap s) sc r c /\ exists n, nth_error (v_heap s) c = Some n /\ matchf lower odd_match (n_entry n) f = Ok true) /\
      Forall2 (sent_for i f attrs (v_heap s)) found es /\
      (sane i (SearchDone (mkResult 0 [] [])) -> sends fin i (SearchDone (mkResult 0 [] []))).
  Proof.
    intros N NR C T HK D LK I Sh SD. assert (N' : VInt i <> VInt 0) by congruence. set (scope := VInt (match sc with ScBase => 0 | ScOne => 1 | ScSub => 2 end)).
    rewrite (handle_eq lower io sha oc_first pw_first odd_match text depth s salt tag (VInt i) (OSearchReq t base scope da sl tl ty f attrs) cs RSearch eq_refl N').
    cbn [handler]. unfold handle_search. rewrite (check_ok cs C). unfold try.
    assert (ND : match base, scope with VBytes [], VInt 0 => is_match_all f | _, _ => Ok false end = Ok false).
    { destruct base as [|z|[|c b]]; try reflexivity. subst scope. destruct sc; try reflexivity. exfalso. apply NR. auto. }
    rewrite ND, D, LK. destruct (walk_exact (v_heap s) L T i f attrs r sc I Sh HK SD) as (es & cs' & W & ND' & F1 & F2). subst scope. rewrite W.
    destruct (final_one (VInt i) (res_obj KSearchDone 0 (VBytes []) (VBytes []))) as (fin & FE & _). rewrite FE. exists es, fin, cs'.
    split; [reflexivity|]. split; [exact ND'|]. split; [|split; [exact F2|]].
    - intros c. rewrite F1. split.
      + intros (SC & FO). split; [exact SC|]. apply (found_spec (v_heap s) L T f c); [|exact FO].
        destruct sc; cbn [in_scope] in SC; [subst c; exact I|exact (t_kids (v_heap s) L T r c I SC)|exact (below_in (v_heap s) L T r c SC I)].
      + intros (SC & X). split; [exact SC|]. apply (found_spec (v_heap s) L T f c); [|exact X].
        destruct sc; cbn [in_scope] in SC; [subst c; exact I|exact (t_kids (v_heap s) L T r c I SC)|exact (below_in (v_heap s) L T r c SC I)].
    - intros S. destruct (final_sends i (SearchDone (mkResult 0 [] [])) S) as (ev' & EV' & Q). change (response_obj (SearchDone (mkResult 0 [] []))) with (res_obj KSearchDone 0 (VBytes []) (VBytes [])) in EV'.
      rewrite FE in EV'. injection EV' as ->. exact Q.
  Qed.
End Search.
