(** Proofs about ldifdiff and ldifpatch: the entries of a file that has been loaded (C98). *)
From Coq Require Import Permutation.
From Verif Require Import Base BaseFacts Utf8Model Utf8Proofs DnModel DnSpec DnProofs EntryModel EntrySpec EntryProofs SortFacts LdapSpec MatchModel UtilModel LdifModel
  LdifSpec LdifProofs LdifRead LdifRound InmemModel InmemSpec InmemProofs InmemHist InmemMove LoadModel LoadSpec ServerModel ServerSearch SyntaxSpec SyntaxProofs
  LoadProofs LoadDump TreeDiffModel TreeDiffSpec TreeDiffSteps TreeDiffProofs TreeDiffMain DiffToolSpec DiffToolProofs.

(** ** Octets that differ in case *)
Lemma lower_cases x y : lower_byte x = lower_byte y -> x = y \/
  ((65 <= b2z x <= 90 \/ 97 <= b2z x <= 122) /\ (65 <= b2z y <= 90 \/ 97 <= b2z y <= 122)).
Proof.
  unfold lower_byte. intros H.
  destruct ((65 <=? b2z x) && (b2z x <=? 90)) eqn:X, ((65 <=? b2z y) && (b2z y <=? 90)) eqn:Y.
  - right. lia.
  - right. assert (E : b2z (z2b (b2z x + 32)) = b2z y) by now rewrite H. rewrite b2z_z2b_small in E; lia.
  - right. assert (E : b2z x = b2z (z2b (b2z y + 32))) by now rewrite H. rewrite b2z_z2b_small in E; lia.
  - now left.
Qed.
Lemma lower_without c a b : ~ (65 <= c <= 90 \/ 97 <= c <= 122) -> lower_bytes a = lower_bytes b -> without c a -> without c b.
Proof.
  intros N. revert b. induction a as [|x a IH]; intros [|y b] E W z I; try discriminate; [destruct I|]. cbn [lower_bytes map] in E. injection E as E1 E2.
  destruct I as [<-|I]; [|refine (IH b E2 _ z I); intros u J; apply W; now right].
  destruct (lower_cases _ _ E1) as [->|(_ & Hy)]; [apply W; now left|]. intros Q. apply N. now rewrite <- Q.
Qed.
Lemma lower_first c a b : ~ (65 <= c <= 90 \/ 97 <= c <= 122) -> lower_bytes a = lower_bytes b -> not_first c a -> not_first c b.
Proof.
  intros N E W y r ->. destruct a as [|x a]; [discriminate|]. cbn [lower_bytes map] in E. injection E as E1 E2.
  destruct (lower_cases _ _ E1) as [->|(_ & Hy)]; [now apply (W y a)|]. intros Q. apply N. now rewrite <- Q.
Qed.
Lemma lower_name a b : lower_bytes a = lower_bytes b -> name_ok a -> name_ok b.
Proof.
  intros E (A & C & D & F). split; [|split; [|split]].
  - apply (lower_without 10 a); [lia|exact E|exact A].
  - apply (lower_without 58 a); [lia|exact E|exact C].
  - apply (lower_first 32 a); [lia|exact E|exact D].
  - apply (lower_first 35 a); [lia|exact E|exact F].
Qed.

Lemma lower_texty a b : lower_bytes a = lower_bytes b -> texty a -> texty b.
Proof.
  remember (length a) as n eqn:L. revert a b L. induction n as [n IH] using lt_wf_ind. intros a b -> E (s & T).
  destruct a as [|x a], b as [|y b]; try discriminate; [now exists []|]. cbn [lower_bytes map] in E. injection E as E1 E2.
  assert (HI : forall x y, 128 <= b2z x -> lower_byte x = lower_byte y -> y = x) by (intros u v Hu Ev; destruct (lower_cases _ _ Ev) as [->|(Q & _)]; [reflexivity|lia]).
  assert (CO : forall x y, cont x = true -> lower_byte x = lower_byte y -> y = x) by (intros u v Hu Ev; apply HI; [unfold cont in Hu; lia|exact Ev]).
  assert (TX : forall a' b', (length a' < length (x :: a))%nat -> lower_bytes a' = lower_bytes b' -> forall t, utf8_decode a' = Ok t -> exists t', utf8_decode b' = Ok t').
  { intros a' b' La Ea t Ta. apply (IH (length a') La a' b' eq_refl Ea). now exists t. }
  cbn [utf8_decode] in T. unfold texty. destruct (b2z x <? 128) eqn:C0.
  - destruct (utf8_decode a) as [t|] eqn:Ta; [|discriminate]. destruct (TX a b) with (t := t) as (t' & Tb); [cbn; lia|exact E2|exact Ta|].
    cbn [utf8_decode]. replace (b2z y <? 128) with true; [rewrite Tb; cbn [bind]; eauto|].
    destruct (lower_cases _ _ E1) as [<-|Q]; [now symmetry|lia].
  - apply HI in E1; [|lia]. subst y. cbn [utf8_decode]. rewrite C0. destruct ((194 <=? b2z x) && (b2z x <=? 223)).
    { destruct a as [|x1 a]; [discriminate|]. destruct b as [|y1 b]; [discriminate|]. cbn [map] in E2. injection E2 as E3 E4.
      destruct (cont x1) eqn:C1; [|discriminate]. apply (CO _ _ C1) in E3. subst y1. rewrite C1.
      destruct (utf8_decode a) as [t|] eqn:Ta; [|discriminate]. destruct (TX a b) with (t := t) as (t' & Tb); [cbn; lia|exact E4|exact Ta|]. rewrite Tb. cbn [bind]. eauto. }
    destruct ((224 <=? b2z x) && (b2z x <=? 239)).
    { destruct a as [|x1 [|x2 a]]; try discriminate. destruct b as [|y1 [|y2 b]]; try discriminate. cbn [map] in E2. injection E2 as E3 E4 E5.
      destruct (cont x1) eqn:C1; [|discriminate]. destruct (cont x2) eqn:C2; [|discriminate].
      apply (CO _ _ C1) in E3. apply (CO _ _ C2) in E4. subst y1 y2. rewrite C1, C2.
      match goal with |- context [if ?c then _ else _] => destruct c end; [|discriminate].
      destruct (utf8_decode a) as [t|] eqn:Ta; [|discriminate]. destruct (TX a b) with (t := t) as (t' & Tb); [cbn; lia|exact E5|exact Ta|]. rewrite Tb. cbn [bind]. eauto. }
    destruct ((240 <=? b2z x) && (b2z x <=? 244)); [|discriminate].
    destruct a as [|x1 [|x2 [|x3 a]]]; try discriminate. destruct b as [|y1 [|y2 [|y3 b]]]; try discriminate. cbn [map] in E2. injection E2 as E3 E4 E5 E6.
    destruct (cont x1) eqn:C1; [|discriminate]. destruct (cont x2) eqn:C2; [|discriminate]. destruct (cont x3) eqn:C3; [|discriminate].
    apply (CO _ _ C1) in E3. apply (CO _ _ C2) in E4. apply (CO _ _ C3) in E5. subst y1 y2 y3. rewrite C1, C2, C3.
    match goal with |- context [if ?c then _ else _] => destruct c end; [|discriminate].
    destruct (utf8_decode a) as [t|] eqn:Ta; [|discriminate]. destruct (TX a b) with (t := t) as (t' & Tb); [cbn; lia|exact E6|exact Ta|]. rewrite Tb. cbn [bind]. eauto.
Qed.

(** ** Entries that can be written *)
Section Written.
  Variable lower : str -> str.
  Variable oc : bool.
  Notation lowv := (lowv lower).

  Definition written (e : entry) : Prop :=
    ent_ok lower false false e /\ forall a, In a (e_attrs e) -> exists k, s_key a = PBytes k /\ name_ok k /\ without 13 k.

  Lemma written_ldif e : written e -> ldif_dn_ok (e_dn e) -> ldif_entry_ok lower e.
  Proof.
    intros (((F & ND) & N) & K) D. split; [exact D|]. split; [exact ND|]. intros a I. rewrite Forall_forall in F. destruct (F a I) as (Tk & Tv & _).
    destruct (K a I) as (k & Ek & Nk & _). rewrite Ek in *. split; [exact Tk|]. split.
    - cbn [to_bytes]. intros k' [= <-]. exact Nk.
    - left. intros v J. rewrite Forall_forall in Tv. specialize (Tv v J). destruct v; [destruct Tv|eauto].
  Qed.
  Lemma written_octets e : written e -> all_octets e.
  Proof.
    intros (((F & _) & _) & K) a I. destruct (K a I) as (k & Ek & _). split; [eauto|]. rewrite Forall_forall in F. destruct (F a I) as (_ & Tv & _).
    intros v J. rewrite Forall_forall in Tv. specialize (Tv v J). destruct v; [destruct Tv|eauto].
  Qed.
  (** Keys that differ from those of an entry in case only. *)
  Lemma written_from e : entry_ok lower false false e ->
    (forall a, In a (e_attrs e) -> exists k k', s_key a = PBytes k /\ lower_bytes k' = lower_bytes k /\ name_ok k' /\ without 13 k') -> written e.
  Proof.
    intros O K. split; [split; [exact O|]|].
    - apply Forall_forall. intros a I. destruct O as (F & _). rewrite Forall_forall in F. split; [apply (F a I)|].
      intros s E. destruct (K a I) as (k & _ & Ek & _). congruence.
    - intros a I. destruct (K a I) as (k & k' & Ek & L & N & W). exists k. split; [exact Ek|]. split; [exact (lower_name k' k L N)|exact (lower_13 k' k L W)].
  Qed.
  Lemma written_new d l : (forall k vs, In (k, vs) l -> (exists b, k = PBytes b /\ texty b /\ name_ok b /\ without 13 b) /\ forall v, In v vs -> exists b, v = PBytes b /\ texty b) ->
    written (new_entry lower d l).
  Proof.
    intros H. split.
    - apply new_entry_ent. intros k vs I. destruct (H k vs I) as ((b & -> & T & _) & V). split; [split; [exact T|discriminate]|].
      apply Forall_forall. intros v J. destruct (V v J) as (c & -> & Tc). exact Tc.
    - intros a I. unfold new_entry in I. cbn [e_attrs] in I. apply in_map_iff in I as (a0 & <- & I). cbn [s_key].
      destruct (init_loop_ok lower l [] (NoDup_nil _)) as (_ & X). destruct (X a0 I) as [(a1 & [] & _)|(vs & J & _)].
      destruct (H _ _ J) as ((b & E & _ & N & W) & _). exists b. auto.
  Qed.

  Lemma items_key e l : items lower oc e = Ok l -> forall k vs, In (k, vs) l ->
    In k (oc_keys oc) \/ (is_oc lower k = false /\ exists a, In a (e_attrs e) /\ s_key a = k).
  Proof.
    unfold items. intros H. apply bind_ok in H as (p & HA & H). apply bind_ok in H as (q & HB & H). apply Ok_inj in H. subst l.
    intros k vs I. apply in_app_iff in I as [I|I].
    - left. unfold oc_part in HA. apply bind_ok in HA as (ll & HL & HA). apply Ok_inj in HA. subst p. apply in_concat in I as (x & Ix & I).
      apply mapR_F2 in HL. destruct (F2_In_r _ _ _ _ HL Ix) as (k0 & K0 & E). cbn beta in E.
      destruct (dict_get lower k0 (e_attrs e)) as [a|]; [|apply Ok_inj in E; subst x; destruct I].
      destruct (s_vals a) as [|v0 r0]; [apply Ok_inj in E; subst x; destruct I|]. apply bind_ok in E as (vs' & SV & E). apply Ok_inj in E. subst x.
      destruct I as [[= -> ->]|[]]. exact K0.
    - right. unfold other_part in HB. apply bind_ok in HB as (kb & HK & HB). apply mapR_F2 in HB. apply mapR_F2 in HK.
      destruct (F2_In_r _ _ _ _ HB I) as ((k0 & vs0) & I0 & E). cbn [fst snd] in E. apply bind_ok in E as (vs' & SV & E). apply Ok_inj in E. injection E as -> ->.
      apply filter_In in I0 as (I0 & NO). cbn [fst] in NO. split; [now apply Bool.negb_true_iff|].
      apply in_map_iff in I0 as ((bb & kv) & Ekv & I0). cbn [snd] in Ekv. subst kv.
      apply (Permutation_in _ (Permutation_sym (sort_perm _ _))) in I0. destruct (F2_In_r _ _ _ _ HK I0) as (a & Ia & E).
      apply bind_ok in E as (b0 & _ & E). apply Ok_inj in E. injection E as _ E1 E2. exists a. auto.
  Qed.

  Definition oc_name : pyval := PBytes (B "objectClass").
  (** The entry that is made of [e0]. *)
  Lemma read_written e0 d l : octets_only lower e0 -> plain_entry e0 -> items lower oc e0 = Ok l ->
    written (new_entry lower d l) /\ same_attrs lower (new_entry lower d l) e0 /\
    forall k, In k (keys_of (new_entry lower d l)) -> k = oc_name \/ (is_oc lower k = false /\ exists a, In a (e_attrs e0) /\ s_key a = k).
  Proof.
    intros O (D0 & P) H.
    assert (KS : forall k vs, In (k, vs) l -> k = oc_name \/ (is_oc lower k = false /\ exists a, In a (e_attrs e0) /\ s_key a = k)).
    { intros k vs I. destruct (items_key e0 l H k vs I) as [J|J]; [|now right]. left. destruct (items_sound lower oc e0 l H k vs I) as (a & Ia & L & _).
      destruct O as (O & _). destruct (O a Ia) as ((kb & Ek) & _). rewrite Ek in L. unfold oc_keys in J. destruct oc; cbn [In] in J; destruct J as [J|[J|[]]]; subst k; try discriminate; reflexivity. }
    split; [|split].
    - apply written_new. intros k vs I. split.
      + destruct (KS k vs I) as [->|(_ & a & Ia & <-)].
        * exists (B "objectClass"). split; [reflexivity|]. split; [eexists; vm_compute; reflexivity|]. split; [apply name_lit; reflexivity|now apply without_lit].
        * destruct (proj1 O a Ia) as ((kb & Ek) & _). exists kb. split; [exact Ek|]. apply (proj1 (P a Ia)). exact Ek.
      + intros v V. destruct (items_sound lower oc e0 l H k vs I) as (a & Ia & _ & Pm). apply (Permutation_in _ (Permutation_sym Pm)) in V.
        destruct (proj1 O a Ia) as (_ & _ & Bv). destruct (Bv v V) as (b & ->). exists b. split; [reflexivity|]. exact (proj2 (P a Ia) b V).
    - destruct (items_octets lower oc e0 O) as (l' & E & S). rewrite H in E. apply Ok_inj in E. subst l'. apply S.
    - intros k J. unfold keys_of, new_entry in J. cbn [e_attrs] in J. rewrite map_map in J. apply in_map_iff in J as (a & <- & J). cbn [s_key].
      destruct (init_loop_ok lower l [] (NoDup_nil _)) as (_ & X). destruct (X a J) as [(a0 & [] & _)|(vs & J1 & _)]. exact (KS _ _ J1).
  Qed.
End Written.

(** ** Loading *)
Section Loading.
  Variable lower : str -> str.
  Variable io : Z -> Z -> res Z.
  Variable vio : str -> res Z.
  Variable oc : bool.
  Variable depth : nat.
  Notation same := (same_dn lower).

  Definition rd_ok (rd : rdn) : Prop := canonical lower rd /\ Forall (fun a => scalar (a_type a) /\ ~ In 61 (a_type a) /\ scalar (a_value a)) rd.
  Lemma rd_consistent : consistent lower rd_ok.
  Proof. intros a b (A & _) (D & _). now apply canonical_consistent. Qed.

  Lemma all_dns rt h L : inv rd_ok rt h L -> ldif_dn_ok rt -> forall c, In c L -> ldif_dn_ok (dn_at h c).
  Proof.
    intros I D0 c Ic. pose proof (i_tree _ _ _ _ I) as T. pose proof (root_below h L T c Ic) as B. clear Ic.
    assert (G : forall r c, below h r c -> In r L -> ldif_dn_ok (dn_at h r) -> ldif_dn_ok (dn_at h c)).
    { clear c B. intros r c B. induction B as [r|r x c K B IH]; intros Ir Dr; [exact Dr|]. pose proof (t_kids h L T r x Ir K) as Ix. apply (IH Ix).
      destruct (dn_at_kid rd_ok rt h L I r x Ir K) as (rd & Ex & (Cn & Cr) & _). rewrite Ex. split; [constructor; [exact Cr|apply Dr]|].
      intros [= -> _]. destruct Cn as (_ & N & _). congruence. }
    apply (G 0%nat c B (t_root h L T)). destruct (i_root _ _ _ _ I) as (n & N & _ & Dn). unfold dn_at. now rewrite N, Dn.
  Qed.

  (** [e], of a directory, was made of [e0], of a file. *)
  Definition made (e e0 : entry) : Prop :=
    same (e_dn e) (e_dn e0) /\ (exists l, items lower oc e0 = Ok l /\ e = new_entry lower (e_dn e) l) /\ ldif_dn_ok (e_dn e) /\ (length (e_dn e) < depth)%nat.

  Lemma loaded text es : parse lower io vio false [text] = (map REntry es, Ok tt) -> es <> [] -> in_order lower es -> rdns_ok (canonical lower) depth es ->
    Forall plain_entry es ->
    exists h L, fromLDIFFile lower io vio oc depth text = LDone h /\ inv rd_ok (e_dn (hd (mkEntry [] []) es)) h L /\ Forall (octets_only lower) es /\
      (forall e, ents h L e -> exists e0, In e0 es /\ made e e0) /\ forall e0, In e0 es -> exists e, ents h L e /\ made e e0.
  Proof.
    intros P NE IO (D & Crd) PL. destruct (parse_text lower io vio oc depth text es P) as (-> & O).
    destruct es as [|e es]; [congruence|]. destruct (items_octets lower oc e (Forall_inv O)) as (a & A & _).
    cbn [load]. rewrite A. change [mkNode (new_entry lower (e_dn e) a) None []] with (start lower (e_dn e) a). cbn [hd].
    destruct (rest_run lower oc rd_ok rd_consistent depth (e_dn e) es (start lower (e_dn e) a) [0%nat] [(e_dn e, a)] [e] []) as (h & L & M & E & (I & S) & R).
    - apply start_sim.
    - now apply start_rel.
    - discriminate.
    - now apply Forall_inv_tail in O.
    - intros x J. apply D. now right.
    - intros x rd p J Ex. split; [now apply (Crd x rd p)|]. rewrite Forall_forall in PL. destruct (PL x (or_intror J)) as ((Q & _) & _). rewrite Ex in Q. exact (Forall_inv Q).
    - exact IO.
    - rewrite app_nil_r in E. cbn [load_rest] in E. rewrite E. cbn [app] in R. exists h, L. split; [reflexivity|]. split; [exact I|]. split; [exact O|].
      pose proof (i_tree _ _ _ _ I) as T.
      pose proof (all_dns (e_dn e) h L I (proj1 (Forall_inv PL))) as DN.
      assert (MK : forall c x e0, In c L -> stored lower h c x -> In e0 (e :: es) -> same (fst x) (e_dn e0) -> items lower oc e0 = Ok (snd x) -> made (ent_at h c) e0).
      { intros c x e0 Ic (n & N & En) I0 Sx It. pose proof (DN c Ic) as Dc. unfold dn_at in Dc. rewrite N in Dc. unfold n_dn in Dc. unfold ent_at. rewrite N. rewrite En in *. cbn [e_dn new_entry] in *.
        split; [exact Sx|]. split; [exists (snd x); auto|]. split; [exact Dc|]. change (length (fst x) < depth)%nat. rewrite (same_len lower _ _ Sx). now apply D. }
      split.
      + intros x (c & Ic & <-). destruct (sim_ref lower h L M c S Ic) as (y & Iy & St). destruct (F2_In_l _ _ _ _ R Iy) as (e0 & I0 & Sx & It). exists e0. split; [exact I0|]. eapply MK; eauto.
      + intros e0 I0. destruct (F2_In_r _ _ _ _ R I0) as (y & Iy & Sx & It). destruct (sim_dn lower h L M y S Iy) as (c & Ic & St). exists (ent_at h c). split; [exists c; auto|]. eapply MK; eauto.
  Qed.

  Lemma made_written e e0 : octets_only lower e0 -> plain_entry e0 -> made e e0 ->
    written lower e /\ same_attrs lower e e0 /\ forall k, In k (keys_of e) -> k = oc_name \/ (is_oc lower k = false /\ exists a, In a (e_attrs e0) /\ s_key a = k).
  Proof. intros O P (_ & (l & L & ->) & _). exact (read_written lower oc e0 _ l O P L). Qed.

  Lemma made_spelling es fs e f e0 f0 : one_spelling lower es fs -> In e0 es -> In f0 fs -> octets_only lower e0 -> octets_only lower f0 -> plain_entry e0 -> plain_entry f0 ->
    made e e0 -> made f f0 -> same (e_dn e) (e_dn f) -> forall k k', In k (keys_of e) -> In k' (keys_of f) -> lowv lower k = lowv lower k' -> k = k'.
  Proof.
    intros SP Ie If Oe Of Pe Pf Me Mf S k k' K K' L. destruct (made_written e e0 Oe Pe Me) as (_ & _ & X). destruct (made_written f f0 Of Pf Mf) as (_ & _ & Y).
    assert (OC : is_oc lower oc_name = true) by reflexivity. assert (IS : is_oc lower k = is_oc lower k') by (unfold is_oc; now rewrite L).
    destruct (X k K) as [->|(N & a & Ia & Ea)], (Y k' K') as [->|(N' & b & Ib & Eb)]; [reflexivity|congruence|congruence|].
    subst k k'. apply (SP e0 f0 a b); auto. eapply same_trans; [apply same_sym, Me|]. eapply same_trans; [exact S|apply Mf].
  Qed.
End Loading.
