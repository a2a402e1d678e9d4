(** LDIF: writing and reading back (C47, C51). *)
From Coq Require Import Permutation.
From Verif Require Import BaseFacts Utf8Model Utf8Proofs DnModel DnSpec DnProofs EntryModel EntrySpec EntryProofs SortFacts
  DeltaSpec UtilModel LdifModel LdifSpec LdifProofs LdifRead.

(** ** mapR *)
Lemma mapR_F2 {A C} (f : A -> res C) l m : mapR f l = Ok m <-> Forall2 (fun x y => f x = Ok y) l m.
Proof.
  revert m. induction l as [|x l IH]; intros m; cbn [mapR].
  - split; [intros H; apply Ok_inj in H; subst; constructor|inversion 1; reflexivity].
  - rewrite bind_ok. split.
    + intros (y & Y & H). rewrite bind_ok in H. destruct H as (t & T & H). apply Ok_inj in H. subst. constructor; [exact Y|now apply IH].
    + inversion 1 as [|? y ? t Y T]; subst. exists y. split; [exact Y|]. rewrite bind_ok. exists t. split; [now apply IH|reflexivity].
Qed.
Lemma mapR_ex {A C} (f : A -> res C) l : (forall x, In x l -> exists y, f x = Ok y) -> exists m, mapR f l = Ok m.
Proof.
  induction l as [|x l IH]; intros H; cbn [mapR]; [eauto|].
  destruct (H x (or_introl eq_refl)) as (y & ->). destruct IH as (m & ->); [intros z I; apply H; now right|]. cbn. eauto.
Qed.
Lemma F2_In_l {A C} (R : A -> C -> Prop) l m x : Forall2 R l m -> In x l -> exists y, In y m /\ R x y.
Proof.
  induction 1 as [|a b l m H F IH]; intros []; subst; [exists b; split; [now left|exact H]|].
  destruct IH as (y & I & Y); [assumption|]. exists y. split; [now right|exact Y].
Qed.
Lemma F2_In_r {A C} (R : A -> C -> Prop) l m y : Forall2 R l m -> In y m -> exists x, In x l /\ R x y.
Proof.
  induction 1 as [|a b l m H F IH]; intros []; subst; [exists a; split; [now left|exact H]|].
  destruct IH as (x & I & Y); [assumption|]. exists x. split; [now right|exact Y].
Qed.

(** ** Texts made of lines *)
Definition text_of (ls : list bytes) : bytes := concat (map (fun l => l ++ [NL]) ls).
Lemma text_of_app a b : text_of (a ++ b) = text_of a ++ text_of b.
Proof. unfold text_of. now rewrite map_app, concat_app. Qed.
Lemma cut_text ls : Forall (without 10) ls -> cut (text_of ls) = (ls, []).
Proof.
  induction 1 as [|l ls W F IH]; [reflexivity|]. unfold text_of in *. cbn [map concat].
  rewrite <- app_assoc. change ([NL] ++ ?x) with (NL :: x). rewrite cut_line by exact W. now rewrite IH.
Qed.
Lemma short_text ls : short_lines (text_of ls) -> Forall (without 10) ls -> Forall short ls.
Proof.
  intros S0 F. rewrite Forall_forall in *. intros l I. apply in_split in I as (l1 & l2 & ->).
  unfold short, MAX_LENGTH. apply (S0 (text_of l1) l ([NL] ++ text_of l2)).
  - rewrite text_of_app. unfold text_of. cbn [map concat]. now rewrite <- app_assoc.
  - apply F. apply in_or_app. right. now left.
Qed.

(** ** The writer *)
Lemma attributeAsLDIF_ok k v kb vb : to_bytes k = Ok kb -> to_bytes v = Ok vb -> attributeAsLDIF k v = Ok (ln kb vb ++ [NL]).
Proof. intros K V. unfold attributeAsLDIF. rewrite K, V. cbn [bind]. now rewrite attr_line_ln. Qed.
Lemma values_ok_bytes vs v : values_ok vs -> In v vs -> exists b, to_bytes v = Ok b.
Proof.
  intros [H|H] I; destruct (H v I) as (x & E); [subst; cbn; eauto|]. destruct E as (b & -> & E). cbn. eauto.
Qed.
Lemma values_ldif_ok k vs kb vbs : to_bytes k = Ok kb -> Forall2 (fun v b => to_bytes v = Ok b) vs vbs ->
  values_ldif k vs = Ok (text_of (lns (map (fun b => (kb, b)) vbs))).
Proof.
  intros K F. unfold values_ldif.
  assert (M : mapR (attributeAsLDIF k) vs = Ok (map (fun b => ln kb b ++ [NL]) vbs)).
  { rewrite mapR_F2. induction F as [|v b vs vbs E F IH]; cbn [map]; constructor; auto. now apply attributeAsLDIF_ok. }
  rewrite M. cbn [bind]. unfold text_of, lns. rewrite !map_map. reflexivity.
Qed.
Lemma F2_bytes vs : (forall v, In v vs -> exists b, to_bytes v = Ok b) -> exists bs, Forall2 (fun v b => to_bytes v = Ok b) vs bs.
Proof. intros H. destruct (mapR_ex to_bytes vs H) as (m & M). exists m. now apply mapR_F2. Qed.

(** Pairs of octets in a list of attributes *)
Definition pairs (a : list (pyval * list pyval)) (kb vb : bytes) : Prop :=
  exists k vs, In (k, vs) a /\ to_bytes k = Ok kb /\ denotes vs vb.
Lemma attrs_ldif_ok a : (forall k vs, In (k, vs) a -> (exists kb, to_bytes k = Ok kb) /\ forall v, In v vs -> exists b, to_bytes v = Ok b) ->
  exists kvs, attrs_ldif a = Ok (text_of (lns kvs)) /\ forall kb vb, In (kb, vb) kvs <-> pairs a kb vb.
Proof.
  unfold attrs_ldif. induction a as [|(k & vs) a IH]; intros H.
  - exists []. split; [reflexivity|]. intros kb vb. split; [intros []|intros (k & vs & [] & _)].
  - destruct IH as (kvs & E & P). { intros k' vs' I. apply H. now right. }
    destruct (H k vs (or_introl eq_refl)) as ((kb & K) & V). destruct (F2_bytes vs V) as (bs & F).
    apply bind_ok in E as (l & M & E). apply Ok_inj in E.
    exists (map (fun b => (kb, b)) bs ++ kvs). split.
    + cbn [mapR fst snd]. rewrite (values_ldif_ok k vs kb bs K F), M. cbn [bind concat]. rewrite E.
      unfold lns. now rewrite map_app, text_of_app.
    + intros k0 v0. rewrite in_app_iff, P. split.
      * intros [I|(k' & vs' & I & T & D)].
        -- apply in_map_iff in I as (b & [= <- <-] & I). exists k, vs. split; [now left|]. split; [exact K|].
           destruct (F2_In_r _ _ _ _ F I) as (v & J & T). now exists v.
        -- exists k', vs'. split; [now right|auto].
      * intros (k' & vs' & [[= <- <-]|I] & T & D).
        -- left. rewrite K in T. apply Ok_inj in T. subst k0. destruct D as (v & J & T).
           destruct (F2_In_l _ _ _ _ F J) as (b & I & T2). apply in_map_iff. exists b. split; [congruence|exact I].
        -- right. exists k', vs'. auto.
Qed.

(** Sorting keeps the elements *)
Lemma perm_In {A} (l m : list A) x : Permutation l m -> In x m <-> In x l.
Proof. intros P. split; apply Permutation_in; [now apply Permutation_sym|exact P]. Qed.
Lemma sort_values_ok vs : values_ok vs -> exists l, sort_values vs = Ok l /\ Permutation vs l.
Proof.
  intros V. unfold sort_values. replace (all_str vs || all_bytes vs) with true.
  - eexists. split; [reflexivity|apply sort_perm].
  - symmetry. apply orb_true_iff. destruct V as [V|V].
    + right. apply forallb_forall. intros v I. destruct (V v I) as (b & ->). reflexivity.
    + left. apply forallb_forall. intros v I. destruct (V v I) as (s & b & -> & _). reflexivity.
Qed.
Lemma sort_bytes_ok {A} (key : A -> pyval) (l : list A) : (forall x, In x l -> exists b, to_bytes (key x) = Ok b) ->
  exists ks, mapR (fun v => do b <- to_bytes (key v); Ok (b, v)) l = Ok ks /\
    Permutation l (map snd (sort_by (fun x y => bytes_leb (fst x) (fst y)) ks)).
Proof.
  intros H. destruct (mapR_ex (fun v => do b <- to_bytes (key v); Ok (b, v)) l) as (ks & K).
  { intros x I. destruct (H x I) as (b & ->). cbn. eauto. }
  exists ks. split; [exact K|]. apply mapR_F2 in K.
  assert (E : map snd ks = l).
  { clear H. induction K as [|x y l ks E K IH]; [reflexivity|]. cbn [map]. apply bind_ok in E as (b & _ & E). apply Ok_inj in E. subst y. cbn [snd]. now rewrite IH. }
  rewrite <- E at 1. apply Permutation_map, sort_perm.
Qed.
Lemma sort_to_bytes_ok vs : (forall v, In v vs -> exists b, to_bytes v = Ok b) -> exists l, sort_to_bytes vs = Ok l /\ Permutation vs l.
Proof.
  intros H. destruct (sort_bytes_ok (fun v => v) vs H) as (ks & K & P). unfold sort_to_bytes. rewrite K. cbn [bind]. eauto.
Qed.
Lemma denotes_perm vs l b : Permutation vs l -> denotes l b <-> denotes vs b.
Proof.
  intros P. unfold denotes. split; intros (v & I & T); exists v; split; auto; now apply (perm_In _ _ v P).
Qed.

(** ASCII *)
Lemma ascii_lower_bytes t : Forall (fun b => b2z b < 128) t -> forall s, ascii_lower s = map b2z t ->
  exists b, utf8_encode s = Ok b /\ lower_bytes b = t.
Proof.
  intros F s E. assert (A : Forall (fun c => 0 <= c < 128) s /\ lower_bytes (map z2b s) = t).
  { revert s E. induction F as [|x t Hx F IH]; intros [|c s] E; try discriminate; [split; [constructor|reflexivity]|].
    unfold ascii_lower in E. cbn [map] in E. injection E as Ec Es. destruct (IH s Es) as (A & L).
    pose proof (b2z_range x) as Rx. unfold lower_bytes in *. cbn [map].
    destruct ((65 <=? c) && (c <=? 90)) eqn:U.
    - split; [constructor; [lia|exact A]|]. rewrite L. f_equal. unfold lower_byte. rewrite b2z_z2b_small by lia. rewrite U.
      apply z2b_is. lia.
    - split; [constructor; [lia|exact A]|]. rewrite L. f_equal. unfold lower_byte. rewrite b2z_z2b_small by lia. rewrite U.
      apply z2b_is. lia. }
  destruct A as (A & L). exists (map z2b s). split; [now apply utf8_encode_ascii|exact L].
Qed.
Ltac Zify.zify_post_hook ::= Z.to_euclidean_division_equations.
Lemma char_low c cb x : utf8_char c = Ok cb -> In x cb -> b2z x < 128 -> cb = [x] /\ b2z x = c.
Proof.
  intros C I L. unfold utf8_char in C.
  repeat match type of C with (if ?c then _ else _) = _ => destruct c eqn:? end; try discriminate; apply Ok_inj in C; subst cb;
    cbn [In] in I; repeat destruct I as [<-|I]; try destruct I; rewrite b2z_z2b in *; try lia.
  split; [reflexivity|lia].
Qed.
Ltac Zify.zify_post_hook ::= idtac.
Lemma char_nonempty c : utf8_char c <> Ok [].
Proof.
  unfold utf8_char. repeat match goal with |- context [if ?c then _ else _] => destruct c eqn:? end; discriminate.
Qed.
Lemma utf8_low s : forall b x, utf8_encode s = Ok b -> In x b -> b2z x < 128 -> In (b2z x) s.
Proof.
  induction s as [|c s IH]; intros b x E I L; cbn [utf8_encode] in E; [apply Ok_inj in E; subst; destruct I|].
  apply bind_ok in E as (cb & C & E). apply bind_ok in E as (t & T & E). apply Ok_inj in E. subst b.
  apply in_app_or in I as [I|I]; [left|right; eapply IH; eauto]. symmetry. eapply char_low; eauto.
Qed.
Lemma utf8_first s x b : utf8_encode s = Ok (x :: b) -> b2z x < 128 -> exists r, s = b2z x :: r.
Proof.
  destruct s as [|c s]; cbn [utf8_encode]; [discriminate|]. intros E L.
  apply bind_ok in E as (cb & C & E). apply bind_ok in E as (t & T & E). apply Ok_inj in E.
  destruct cb as [|y cb]; [now apply char_nonempty in C|]. injection E as <- E.
  destruct (char_low c (y :: cb) y C (or_introl eq_refl) L) as (_ & <-). eauto.
Qed.

(** The characters of the text of a DN *)
Definition shown (c : Z) : Prop := 31 < c /\ (c < 0xD800 \/ 0xE000 <= c < 0x110000).
Ltac Zify.zify_post_hook ::= Z.to_euclidean_division_equations.
Lemma escape_char_shown c : 0 <= c < 0xD800 \/ 0xE000 <= c < 0x110000 -> Forall shown (escape_char c).
Proof.
  intros H. unfold escape_char, shown. destruct (zin c escapedChars) eqn:Z0.
  - apply zin_In in Z0. unfold escapedChars, c_comma, c_plus, c_quote, c_bs, c_lt, c_gt, c_semi, c_eq in *.
    cbn [In] in Z0. apply Forall_cons; [lia|]. apply Forall_cons; [lia|apply Forall_nil].
  - destruct (c <=? 31) eqn:L; [|apply Forall_cons; [lia|apply Forall_nil]].
    unfold c_bs, hex_upper. repeat apply Forall_cons; try apply Forall_nil; repeat match goal with |- context [if ?b then _ else _] => destruct b eqn:? end; lia.
Qed.
Ltac Zify.zify_post_hook ::= idtac.
Lemma escape_shown s : scalar s -> Forall shown (escape s).
Proof.
  intros H. destruct (escape_parts s) as (a & m & b & -> & -> & Ea & Eb & _). unfold scalar in H. rewrite !Forall_app in H. destruct H as (_ & M & _).
  assert (En : forall l, is_end l -> Forall shown (esc_end l)).
  { intros l [->|(c & I & ->)]; [constructor|]. unfold shown, esc_end, escapedEnds, c_bs, c_space, c_hash in *. cbn [In] in I.
    cbn [flat_map app]. apply Forall_cons; [lia|]. apply Forall_cons; [lia|apply Forall_nil]. }
  rewrite !Forall_app. split; [auto|]. split; [|auto].
  clear - M. induction M as [|c m H M IH]; [constructor|]. cbn [flat_map]. apply Forall_app. split; [now apply escape_char_shown|exact IH].
Qed.
Lemma join_shown sep l : Forall shown sep -> Forall (Forall shown) l -> Forall shown (join sep l).
Proof.
  intros S0 F. induction F as [|x l X F IH]; [constructor|]. cbn [join]. destruct l; [exact X|]. rewrite !Forall_app. auto.
Qed.
Lemma dn_shown d : ldif_dn_ok d -> Forall shown (dn_text d).
Proof.
  intros (F & _). apply join_shown; [apply Forall_cons; [unfold shown, c_comma; lia|apply Forall_nil]|]. apply Forall_map. eapply Forall_impl; [|exact F].
  intros r Fr. apply join_shown; [apply Forall_cons; [unfold shown, c_plus; lia|apply Forall_nil]|]. apply Forall_map. eapply Forall_impl; [|exact Fr].
  intros x (A & _ & V). unfold atv_text. apply join_shown; [apply Forall_cons; [unfold shown, c_eq; lia|apply Forall_nil]|].
  constructor; [now apply escape_shown|]. constructor; [now apply escape_shown|constructor].
Qed.
Lemma ldif_dn_dn_ok d : ldif_dn_ok d -> dn_ok d.
Proof.
  intros (F & N). split; [|exact N]. eapply Forall_impl; [|exact F]. intros r Fr. eapply Forall_impl; [|exact Fr].
  intros x (A & E & V). assert (T : forall s, scalar s -> text s). { intros s. apply Forall_impl. intros; lia. }
  split; [|split]; auto.
Qed.
Lemma dn_begins d : begins_not 32 (dn_text d).
Proof.
  intros r. unfold dn_text. destruct d as [|x [|y d]]; cbn [map join]; [discriminate|apply rdn_text_begins|].
  pose proof (rdn_text_begins x) as Bx. destruct (rdn_text x) as [|c t]; cbn; [discriminate|]. intros [= -> _]. now apply (Bx t).
Qed.
Lemma dn_encodes d : ldif_dn_ok d -> exists b, utf8_encode (dn_text d) = Ok b.
Proof.
  intros O. apply utf8_encode_total. eapply Forall_impl; [|exact (dn_shown d O)]. intros c H. unfold shown in H. lia.
Qed.

(** The line of the DN in an entry *)
Lemma plain_dn_line d : ldif_dn_ok d -> exists b, utf8_encode (dn_text d) = Ok b /\ without 13 b /\
  fine (B "dn: " ++ b) /\ parseLine (B "dn: " ++ b) = Ok (B "dn", b).
Proof.
  intros O. destruct (dn_encodes d O) as (b & E). exists b. split; [exact E|].
  assert (W : forall z, 0 <= z <= 31 -> without z b).
  { intros z Z0 x I X. assert (J : In (b2z x) (dn_text d)) by (eapply utf8_low; eauto; lia).
    pose proof (dn_shown d O) as Sh. rewrite Forall_forall in Sh. specialize (Sh _ J). unfold shown in Sh. lia. }
  assert (S0 : starts_with [SP] b = false).
  { destruct b as [|x b]; [reflexivity|]. cbn [starts_with]. rewrite andb_true_r. apply beqb_neq. intros <-.
    destruct (utf8_first _ _ _ E) as (r & X); [reflexivity|]. apply (dn_begins d r). exact X. }
  split; [apply W; lia|]. split.
  - change (B "dn: " ++ b) with (B "dn" ++ COLON :: B " " ++ b).
    apply fine_colon; [now apply without_lit| | |apply without_app; [now apply without_lit|apply W; lia]]; intros y r [= <- _]; now vm_compute.
  - change (B "dn: " ++ b) with (B "dn" ++ B ": " ++ b). apply parse_plain; [now apply without_lit|exact S0].
Qed.
Lemma read_dn_text io d b : dn_ok d -> utf8_encode (dn_text d) = Ok b -> read_dn io b = Ok d.
Proof. intros O E. unfold read_dn. rewrite (decode_encode _ _ E). cbn [bind]. now apply parse_dn_text. Qed.

Section Items.
  Variable lower : str -> str.
  Variable oc : bool.
  Hypothesis LOC : lower_oc lower.

  Lemma oc_lower : lowv lower (PStr (S_ "objectClass")) = PStr (S_ "objectclass").
  Proof. cbn [lowv]. f_equal. apply LOC. vm_compute. reflexivity. Qed.
  Lemma oc_lower_b : lowv lower (PBytes (B "objectClass")) = PBytes (B "objectclass").
  Proof. vm_compute. reflexivity. Qed.
  Lemma oc_keys_In k : In k (oc_keys oc) <-> k = PStr (S_ "objectClass") \/ k = PBytes (B "objectClass").
  Proof. unfold oc_keys. destruct oc; cbn [In]; intuition auto. Qed.
  Lemma oc_keys_bytes k : In k (oc_keys oc) -> to_bytes k = Ok (B "objectClass").
  Proof. rewrite oc_keys_In. intros [->| ->]; reflexivity. Qed.
  (** Keys that are "objectClass" up to case *)
  Lemma is_oc_iff k : is_oc lower k = true <-> exists o, In o (oc_keys oc) /\ lowv lower k = lowv lower o.
  Proof.
    unfold is_oc. rewrite mem_In. split.
    - intros [E|[E|[]]]; [exists (PStr (S_ "objectClass"))|exists (PBytes (B "objectClass"))]; (split; [apply oc_keys_In; auto|]).
      + now rewrite oc_lower.
      + now rewrite oc_lower_b.
    - intros (o & I & E). apply oc_keys_In in I as [->| ->].
      + rewrite oc_lower in E. left. now symmetry.
      + rewrite oc_lower_b in E. right. left. now symmetry.
  Qed.
  Lemma oc_same k o kb : In o (oc_keys oc) -> lowv lower k = lowv lower o -> to_bytes k = Ok kb ->
    lower_bytes kb = lower_bytes (B "objectClass").
  Proof.
    intros I E T. apply oc_keys_In in I as [->| ->].
    - rewrite oc_lower in E. destruct k as [s|b]; [|discriminate]. cbn in E. injection E as E. apply LOC in E.
      destruct (ascii_lower_bytes (B "objectclass")) with (s := s) as (b & U & L).
      { apply Forall_forall. intros x J. vm_compute in J. repeat destruct J as [<-|J]; try destruct J; now vm_compute. }
      { exact E. }
      cbn in T. rewrite U in T. apply Ok_inj in T. subst. rewrite L. reflexivity.
    - rewrite oc_lower_b in E. destruct k as [s|b]; [discriminate|]. cbn in E, T. injection E as E. apply Ok_inj in T. subst. rewrite E. reflexivity.
  Qed.

  Lemma getitem_self e a : ldif_attrs_ok lower e -> In a (e_attrs e) -> getitem lower (s_key a) e = Ok a.
  Proof.
    intros (N & H) I. destruct (H a I) as (C & _). unfold getitem, find_key.
    assert (G : exists w, get_strings (s_key a) = Ok [s_key a; w]).
    { destruct (s_key a) as [s|b]; cbn in *; destruct C as (x & ->); cbn; eauto. }
    destruct G as (w & ->). cbn [bind fold_right]. now rewrite (dict_get_In lower (s_key a) _ a N I eq_refl).
  Qed.
  Lemma attr_key e a : ldif_attrs_ok lower e -> In a (e_attrs e) -> exists kb, to_bytes (s_key a) = Ok kb /\ name_ok kb.
  Proof.
    intros (_ & H) I. destruct (H a I) as (C & Nm & _). destruct (s_key a) as [s|b]; cbn in C.
    - destruct C as (b & E). exists b. split; [exact E|]. now apply Nm.
    - exists b. split; [reflexivity|]. now apply Nm.
  Qed.

  Lemma oc_items_ok e : ldif_attrs_ok lower e -> exists l, oc_items lower oc e = Ok l /\
    (forall k vs, In (k, vs) l -> In k (oc_keys oc) /\ forall v, In v vs -> exists b, to_bytes v = Ok b) /\
    (forall vb, (exists k vs, In (k, vs) l /\ denotes vs vb) <->
       exists a, In a (e_attrs e) /\ is_oc lower (s_key a) = true /\ denotes (s_vals a) vb).
  Proof.
    intros O. pose proof O as (N & H). unfold oc_items.
    assert (V : forall k, exists l, sort_to_bytes (match dict_get lower k (e_attrs e) with Some a => s_vals a | None => [] end) = Ok l /\
      Permutation (match dict_get lower k (e_attrs e) with Some a => s_vals a | None => [] end) l /\ forall v, In v l -> exists b, to_bytes v = Ok b).
    { intros k. destruct (dict_get lower k (e_attrs e)) as [a|] eqn:G.
      - apply dict_get_some in G as (I & _). destruct (H a I) as (_ & _ & Va).
        destruct (sort_to_bytes_ok (s_vals a)) as (l & S0 & P). { intros v J. eapply values_ok_bytes; eauto. }
        exists l. split; [exact S0|]. split; [exact P|]. intros v J. apply (values_ok_bytes _ _ Va). now apply (perm_In _ _ v P).
      - exists []. split; [reflexivity|]. split; [constructor|intros v []]. }
    destruct (mapR_ex (fun k => do vs <- sort_to_bytes (match dict_get lower k (e_attrs e) with Some a => s_vals a | None => [] end); Ok (k, vs)) (oc_keys oc)) as (l & L).
    { intros k _. destruct (V k) as (x & -> & _). cbn. eauto. }
    exists l. split; [exact L|]. apply mapR_F2 in L. split.
    - intros k vs I. destruct (F2_In_r _ _ _ _ L I) as (k' & J & E). cbv beta in E. destruct (V k') as (x & S0 & _ & B0).
      rewrite S0 in E. cbn in E. apply Ok_inj in E. injection E as <- <-. auto.
    - intros vb. split.
      + intros (k & vs & I & D). destruct (F2_In_r _ _ _ _ L I) as (k' & J & E). cbv beta in E. destruct (V k') as (x & S0 & P & _).
        rewrite S0 in E. cbn in E. apply Ok_inj in E. injection E as <- <-. apply (denotes_perm _ _ vb P) in D.
        destruct (dict_get lower k' (e_attrs e)) as [a|] eqn:G; [|destruct D as (v & [] & _)].
        apply dict_get_some in G as (Ia & Ea). exists a. split; [exact Ia|]. split; [|exact D]. apply is_oc_iff. eauto.
      + intros (a & I & Oc & D). apply is_oc_iff in Oc as (o & Io & Eo).
        destruct (F2_In_l _ _ _ _ L Io) as ((k & vs) & J & E). cbv beta in E. destruct (V o) as (x & S0 & P & _).
        rewrite S0 in E. cbn in E. apply Ok_inj in E. injection E as <- <-. exists o, x. split; [exact J|].
        apply (denotes_perm _ _ vb P). now rewrite (dict_get_In lower o _ a N I Eo).
  Qed.

  Lemma other_items_ok e : ldif_attrs_ok lower e -> exists l, other_items lower e = Ok l /\
    (forall k vs, In (k, vs) l -> exists a, In a (e_attrs e) /\ is_oc lower (s_key a) = false /\ k = s_key a /\ Permutation (s_vals a) vs) /\
    (forall a, In a (e_attrs e) -> is_oc lower (s_key a) = false -> exists vs, In (s_key a, vs) l /\ Permutation (s_vals a) vs).
  Proof.
    intros O. pose proof O as (N & H). unfold other_items.
    assert (I1 : mapR (fun k => do a <- getitem lower k e; Ok (k, s_vals a)) (keys_of e) = Ok (map (fun a => (s_key a, s_vals a)) (e_attrs e))).
    { unfold keys_of. apply mapR_map. apply Forall_forall. intros a I. now rewrite (getitem_self e a O I). }
    rewrite I1. cbn [bind].
    destruct (sort_bytes_ok fst (map (fun a => (s_key a, s_vals a)) (e_attrs e))) as (ks & K & P).
    { intros x I. apply in_map_iff in I as (a & <- & I). cbn. destruct (attr_key e a O I) as (kb & T & _). eauto. }
    rewrite K. cbn [bind].
    set (srt := map snd (sort_by (fun x y => bytes_leb (fst x) (fst y)) ks)) in *. clearbody srt.
    assert (IS : forall x, In x srt <-> exists a, In a (e_attrs e) /\ x = (s_key a, s_vals a)).
    { intros x. rewrite (perm_In _ _ x P), in_map_iff. split; intros (a & A & C); exists a; auto. }
    set (fl := List.filter (fun kv => negb (is_oc lower (fst kv))) srt).
    assert (IF : forall x, In x fl <-> exists a, In a (e_attrs e) /\ is_oc lower (s_key a) = false /\ x = (s_key a, s_vals a)).
    { intros x. unfold fl. rewrite filter_In, IS. split.
      - intros ((a & I & ->) & F). exists a. cbn [fst] in F. split; [exact I|]. split; [now apply negb_true_iff in F|reflexivity].
      - intros (a & I & F & ->). split; [eauto|]. cbn [fst]. now rewrite F. }
    destruct (mapR_ex (fun kv => do vs <- sort_values (snd kv); Ok (fst kv, vs)) fl) as (l & L).
    { intros x I. apply IF in I as (a & I & _ & ->). destruct (H a I) as (_ & _ & Va). destruct (sort_values_ok _ Va) as (vs & S0 & _).
      cbn [fst snd]. rewrite S0. cbn. eauto. }
    exists l. split; [exact L|]. apply mapR_F2 in L. split.
    - intros k vs I. destruct (F2_In_r _ _ _ _ L I) as (x & J & E). apply IF in J as (a & Ia & F & ->). cbn [fst snd] in E.
      destruct (H a Ia) as (_ & _ & Va). destruct (sort_values_ok _ Va) as (ws & S0 & Pv). rewrite S0 in E. cbn in E. apply Ok_inj in E.
      injection E as <- <-. exists a. auto.
    - intros a I F. destruct (F2_In_l _ _ _ (s_key a, s_vals a) L) as ((k & vs) & J & E). { apply IF. eauto. }
      cbn [fst snd] in E. destruct (H a I) as (_ & _ & Va). destruct (sort_values_ok _ Va) as (ws & S0 & Pv). rewrite S0 in E. cbn in E. apply Ok_inj in E.
      injection E as <- <-. exists ws. auto.
  Qed.

  Lemma entry_items_ok e : ldif_attrs_ok lower e -> exists l, entry_items lower oc e = Ok l /\
    (forall k vs, In (k, vs) l -> (exists kb, to_bytes k = Ok kb /\ name_ok kb) /\ forall v, In v vs -> exists b, to_bytes v = Ok b) /\
    (forall k vb, (exists kb, pairs l kb vb /\ lower_bytes kb = lower_bytes k) <-> says e k vb).
  Proof.
    intros O. destruct (oc_items_ok e O) as (l1 & E1 & A1 & B1). destruct (other_items_ok e O) as (l2 & E2 & A2 & B2).
    exists (l1 ++ l2). unfold entry_items. rewrite E1, E2. split; [reflexivity|]. split.
    - intros k vs I. apply in_app_or in I as [I|I].
      + destruct (A1 k vs I) as (Ik & V). split; [|exact V]. exists (B "objectClass"). split; [now apply oc_keys_bytes|]. apply name_lit; reflexivity.
      + destruct (A2 k vs I) as (a & Ia & _ & -> & P). split; [exact (attr_key e a O Ia)|].
        intros v J. destruct (proj2 O a Ia) as (_ & _ & Va). apply (values_ok_bytes _ _ Va). now apply (perm_In _ _ v P).
    - intros k vb. split.
      + intros (kb & (k' & vs & I & T & D) & L). apply in_app_or in I as [I|I].
        * destruct (A1 k' vs I) as (Ik & _). rewrite (oc_keys_bytes k' Ik) in T. apply Ok_inj in T. subst kb.
          destruct (proj1 (B1 vb)) as (a & Ia & Oc & Da). { exists k', vs. auto. }
          destruct (attr_key e a O Ia) as (ab & Ta & _). exists a, ab. split; [exact Ia|]. split; [exact Ta|]. split; [|exact Da].
          rewrite <- L. apply is_oc_iff in Oc as (o & Io & Eo). exact (oc_same _ _ _ Io Eo Ta).
        * destruct (A2 k' vs I) as (a & Ia & _ & -> & P). exists a, kb. split; [exact Ia|]. split; [exact T|]. split; [exact L|].
          now apply (denotes_perm _ _ vb P).
      + intros (a & ab & Ia & Ta & L & D). destruct (is_oc lower (s_key a)) eqn:Oc.
        * destruct (proj2 (B1 vb)) as (k' & vs & I & Dv). { exists a. auto. }
          destruct (A1 k' vs I) as (Ik & _). exists (B "objectClass"). split.
          -- exists k', vs. split; [apply in_or_app; now left|]. split; [now apply oc_keys_bytes|exact Dv].
          -- rewrite <- L. symmetry. apply is_oc_iff in Oc as (o & Io & Eo). exact (oc_same _ _ _ Io Eo Ta).
        * destruct (B2 a Ia Oc) as (vs & I & P). exists ab. split; [|exact L]. exists (s_key a), vs.
          split; [apply in_or_app; now right|]. split; [exact Ta|]. now apply (denotes_perm _ _ vb P).
  Qed.
End Items.

Section Round.
  Variable lower : str -> str.
  Variable io : Z -> Z -> res Z.
  Variable vio : str -> res Z.
  Variable oc : bool.
  Hypothesis LOC : lower_oc lower.

  (** The lines of an entry *)
  Lemma entry_lines e : ldif_entry_ok lower e -> exists t kvs, entry_toWire lower oc e = Ok (text_of ((t :: lns kvs) ++ [[]])) /\
    Forall fine (t :: lns kvs) /\ names kvs /\ (exists b, parseLine t = Ok (B "dn", b) /\ read_dn io b = Ok (e_dn e)) /\
    same_entry e (new_entry lower (e_dn e) (items (add_all [] kvs))) /\ (kvs = [] -> forall k v, ~ says e k v) /\
    (exists b, without 13 b /\ t = B "dn: " ++ b) /\ (forall kb vb, In (kb, vb) kvs -> says e kb vb).
  Proof.
    intros (D & A). destruct (plain_dn_line _ D) as (b & E & E13 & Fd & P). destruct (entry_items_ok lower oc LOC e A) as (l & L & Al & Bl).
    destruct (attrs_ldif_ok l) as (kvs & K & Pk). { intros k vs I. destruct (Al k vs I) as ((kb & T & _) & V). eauto. }
    assert (Nm : names kvs).
    { apply Forall_forall. intros (kb & vb) I. apply Pk in I as (k & vs & I & T & _). destruct (Al k vs I) as ((kb' & T' & Nk) & _).
      rewrite T in T'. apply Ok_inj in T'. now subst. }
    exists (B "dn: " ++ b), kvs. split; [|split; [|split; [exact Nm|split; [|split; [|split; [|split; [eauto|]]]]]]].
    - unfold entry_toWire. rewrite L. cbn [bind]. unfold asLDIF. cbn [to_bytes]. rewrite E, K. cbn [bind]. f_equal.
      cbn [app]. change (text_of ((B "dn: " ++ b) :: lns kvs ++ [[]])) with (((B "dn: " ++ b) ++ [NL]) ++ text_of (lns kvs ++ [[]])).
      rewrite text_of_app, <- !app_assoc. reflexivity.
    - constructor; [exact Fd|]. unfold lns. apply Forall_map. eapply Forall_impl; [|exact Nm]. intros (kb & vb) Nk. now apply fine_ln.
    - exists b. split; [exact P|]. apply read_dn_text; [now apply ldif_dn_dn_ok|exact E].
    - split; [reflexivity|]. intros k v. rewrite items_says, <- Bl. split.
      + intros (k0 & I & Lk). exists k0. split; [now apply Pk|exact Lk].
      + intros (k0 & I & Lk). exists k0. split; [now apply Pk|exact Lk].
    - intros -> k v S0. apply Bl in S0 as (kb & Pb & _). now apply Pk in Pb.
    - intros kb vb I. apply Bl. exists kb. split; [now apply Pk|reflexivity].
  Qed.

  Lemma fine_nl l : Forall fine l -> Forall (without 10) (l ++ [[]]).
  Proof.
    intros F. apply Forall_app. split; [|constructor; [intros ? []|constructor]].
    eapply Forall_impl; [|exact F]. intros x Fx. apply Fx.
  Qed.
  (** A text of one record *)
  Lemma record_process d l s r : Forall fine l -> l <> [] -> short_lines (text_of (l ++ [[]])) -> idle0 s ->
    lrun lower io vio d s (l ++ [[]]) = (r, Ok (waiting s)) ->
    process lower io vio d (text_of (l ++ [[]])) s = (r, Ok ([], waiting s)).
  Proof.
    intros F N S0 I E. unfold process. rewrite (cut_text _ (fine_nl l F)). cbn [fst snd].
    rewrite run_record; [now rewrite E|apply I|exact N|].
    pose proof (short_text _ S0 (fine_nl l F)) as Sh. apply Forall_app in Sh as (Sh & _).
    rewrite Forall_forall in *. intros x J. split; auto.
  Qed.

  Lemma entry_process e : ldif_entry_ok lower e -> exists w e', entry_toWire lower oc e = Ok w /\ same_entry e e' /\
    (short_lines w -> forall s, idle0 s -> process lower io vio false w s = ([REntry e'], Ok ([], waiting s))).
  Proof.
    intros O. destruct (entry_lines e O) as (t & kvs & W & F & Nm & (b & P & R) & Se & _ & _).
    eexists. eexists. split; [exact W|]. split; [exact Se|]. intros S0 s I.
    apply record_process; [exact F|discriminate|exact S0|exact I|].
    inversion F as [|? ? Ft _]; subst. now apply entry_record with (d := b).
  Qed.
  Lemma entries_process es : Forall (ldif_entry_ok lower) es -> exists ws es', mapR (entry_toWire lower oc) es = Ok ws /\ Forall2 same_entry es es' /\
    (Forall short_lines ws -> forall s, idle0 s -> process lower io vio false (concat ws) s =
       (map REntry es', Ok ([], match es with [] => s | _ => waiting s end))).
  Proof.
    induction 1 as [|e es O F IH].
    - exists [], []. split; [reflexivity|]. split; [constructor|]. intros _ s I. cbn. reflexivity.
    - destruct (entry_process e O) as (w & e' & W & Se & P). destruct IH as (ws & es' & Ws & Ses & Ps).
      exists (w :: ws), (e' :: es'). split; [cbn [mapR]; now rewrite W, Ws|]. split; [now constructor|].
      intros S0 s I. inversion S0 as [|? ? Sw Sws]; subst. cbn [concat map]. rewrite process_app, (P Sw s I). cbn [app].
      rewrite (Ps Sws (waiting s) (waiting_idle s I)). cbn [app]. now destruct es.
  Qed.
  Lemma p0_idle : idle0 p0. Proof. unfold idle0. cbn. tauto. Qed.
  Lemma header_process d s : s = p0 -> process lower io vio d ldif_header s = ([], Ok ([], set_version (Some 1) (waiting s))).
  Proof. intros ->. unfold process. destruct d; reflexivity. Qed.

  Lemma entries_roundtrip es : Forall (ldif_entry_ok lower) es -> exists ws es', mapR (entry_toWire lower oc) es = Ok ws /\ Forall2 same_entry es es' /\
    (Forall short_lines ws ->
       (es <> [] -> parse lower io vio false [concat ws] = (map REntry es', Ok tt)) /\
       parse lower io vio false [ldif_header ++ concat ws] = (map REntry es', Ok tt)).
  Proof.
    intros F. destruct (entries_process es F) as (ws & es' & W & Se & P). exists ws, es'. split; [exact W|]. split; [exact Se|].
    intros S0. rewrite !parse_is. cbn [concat]. rewrite !app_nil_r. unfold parse_text. split.
    - intros N. rewrite (P S0 p0 p0_idle). destruct es; [congruence|reflexivity].
    - rewrite process_app, header_process by reflexivity. cbn [app].
      rewrite (P S0). 2:{ unfold idle0. cbn. tauto. } destruct es; reflexivity.
  Qed.

  (** ** Change records *)
  Lemma b64_dn_line d : ldif_dn_ok d -> exists b,
    attributeAsLDIF (PStr (S_ "dn")) (PStr (dn_text d)) = Ok (ln (B "dn") b ++ [NL]) /\
    fine (ln (B "dn") b) /\ parseLine (ln (B "dn") b) = Ok (B "dn", b) /\ read_dn io b = Ok d.
  Proof.
    intros O. destruct (dn_encodes d O) as (b & E). exists b. split; [now apply attributeAsLDIF_ok|]. split; [apply fine_ln, name_lit; reflexivity|].
    split; [apply parse_ln, without_lit; reflexivity|]. apply read_dn_text; [now apply ldif_dn_dn_ok|exact E].
  Qed.
  Lemma idle_parse d t r : process lower io vio d t p0 = (r, Ok ([], waiting p0)) -> parse lower io vio d [t] = (r, Ok tt).
  Proof. intros H. rewrite parse_is. cbn [concat]. rewrite app_nil_r. unfold parse_text. now rewrite H. Qed.

  Lemma delete_process d : ldif_dn_ok d -> exists t, delete_asLDIF d = Ok t /\
    (short_lines t -> forall s, idle0 s -> process lower io vio true t s = ([RDelete d], Ok ([], waiting s))).
  Proof.
    intros O. destruct (b64_dn_line d O) as (b & A & F & P & R). unfold delete_asLDIF. rewrite A. cbn [bind].
    set (l := [ln (B "dn") b; ln (B "changetype") (B "delete")]).
    assert (T : (ln (B "dn") b ++ [NL]) ++ attr_line (B "changetype") (B "delete") ++ [NL] = text_of (l ++ [[]])).
    { rewrite attr_line_ln. unfold text_of, l. cbn [app map concat]. rewrite <- !app_assoc. reflexivity. }
    eexists. split; [reflexivity|]. rewrite T. intros S0 s Is. apply record_process; [|discriminate|exact S0|exact Is|].
    - unfold l. constructor; [exact F|]. constructor; [|constructor]. apply fine_ln, name_lit; reflexivity.
    - apply delete_record with (d := b); auto.
  Qed.
  Lemma delete_roundtrip d : ldif_dn_ok d -> exists t, delete_asLDIF d = Ok t /\
    (short_lines t -> parse lower io vio true [t] = ([RDelete d], Ok tt)).
  Proof. intros O. destruct (delete_process d O) as (t & A & P). exists t. split; [exact A|]. intros S0. apply idle_parse, P; auto using p0_idle. Qed.

  Lemma mod_lines m : ldif_delta_ok m -> exists x, mod_asLDIF m = Ok (text_of (modlines x)) /\ name_ok (snd (fst x)) /\ same_mod m (moddelta x).
  Proof.
    intros ((k & K & Nk) & V). destruct (sort_values_ok _ V) as (vs & S0 & P). unfold mod_asLDIF. rewrite S0. cbn [bind].
    destruct (F2_bytes vs) as (bs & F). { intros v I. apply (values_ok_bytes _ _ V). now apply (perm_In _ _ v P). }
    rewrite (attributeAsLDIF_ok (PBytes (kind_word (d_kind m))) (d_key m) (kind_word (d_kind m)) k eq_refl K), (values_ldif_ok _ _ _ _ K F). cbn [bind].
    exists (d_kind m, k, bs). split; [|split; [exact Nk|]].
    - f_equal. cbn [modlines]. change (text_of (?a :: ?r)) with ((a ++ [NL]) ++ text_of r).
      change (text_of (ln (kind_word (d_kind m)) k :: lns (map (fun v => (k, v)) bs) ++ [B "-"])) with
        ((ln (kind_word (d_kind m)) k ++ [NL]) ++ text_of (lns (map (fun v => (k, v)) bs) ++ [B "-"])).
      rewrite text_of_app. reflexivity.
    - cbn [moddelta]. unfold new_delta. split; [reflexivity|]. cbn [d_key d_vals]. split; [exists k; split; [exact K|reflexivity]|].
      split; [eauto|]. split; [apply NoDup_set_of|]. split.
      + intros v I. apply (proj1 (In_set_of _ _)) in I. apply in_map_iff in I as (c & <- & _). eauto.
      + intros c. rewrite <- (denotes_perm _ _ c P). unfold denotes. split.
        * intros (v & I & T). destruct (F2_In_l _ _ _ _ F I) as (b & J & T2). exists (PBytes c). split; [|reflexivity].
          apply In_set_of, in_map_iff. exists b. split; [congruence|exact J].
        * intros (v & I & T). apply (proj1 (In_set_of _ _)) in I. apply in_map_iff in I as (b & <- & I). cbn in T. apply Ok_inj in T. subst.
          destruct (F2_In_r _ _ _ _ F I) as (v & J & T). eauto.
  Qed.
  Lemma modlines_fine x : name_ok (snd (fst x)) -> Forall fine (modlines x).
  Proof.
    destruct x as ((k & key) & vs). cbn [fst snd modlines]. intros N. constructor; [apply fine_ln, kind_name|].
    apply Forall_app. split.
    - unfold lns. rewrite map_map. apply Forall_map. apply Forall_forall. intros v _. now apply fine_ln.
    - constructor; [|constructor]. split; [discriminate|]. split; [reflexivity|]. split; [reflexivity|]. now apply without_lit.
  Qed.
  Lemma modify_process d ms : ldif_dn_ok d -> Forall ldif_delta_ok ms ->
    exists t ms', modify_asLDIF d ms = Ok t /\ Forall2 same_mod ms ms' /\
    (short_lines t -> forall s, idle0 s -> process lower io vio true t s = ([RModify d ms'], Ok ([], waiting s))).
  Proof.
    intros O Fm. destruct (b64_dn_line d O) as (b & A & F & P & R). unfold modify_asLDIF. rewrite A. cbn [bind].
    assert (X : exists xs, mapR mod_asLDIF ms = Ok (map (fun x => text_of (modlines x)) xs) /\ Forall (fun m => name_ok (snd (fst m))) xs /\
                 Forall2 same_mod ms (map moddelta xs)).
    { induction Fm as [|m ms Om Fm (xs & M & N & S0)]; [exists []; repeat split; constructor|].
      destruct (mod_lines m Om) as (x & Mx & Nx & Sx). exists (x :: xs). cbn [mapR map]. rewrite Mx, M. repeat split; constructor; auto. }
    destruct X as (xs & M & N & Sm). rewrite M. cbn [bind].
    set (l := ln (B "dn") b :: ln (B "changetype") (B "modify") :: concat (map modlines xs)).
    assert (T : (ln (B "dn") b ++ [NL]) ++ attr_line (B "changetype") (B "modify") ++ concat (map (fun x => text_of (modlines x)) xs) ++ [NL] = text_of (l ++ [[]])).
    { rewrite attr_line_ln, text_of_app. unfold l.
      change (text_of (ln (B "dn") b :: ln (B "changetype") (B "modify") :: concat (map modlines xs))) with
        ((ln (B "dn") b ++ [NL]) ++ (ln (B "changetype") (B "modify") ++ [NL]) ++ text_of (concat (map modlines xs))).
      rewrite <- !app_assoc. do 4 f_equal. f_equal.
      clear. induction xs as [|x xs IH]; [reflexivity|]. cbn [map concat]. now rewrite text_of_app, IH. }
    eexists. exists (map moddelta xs). split; [reflexivity|]. split; [exact Sm|]. rewrite T. intros S0 s Is.
    apply record_process; [|discriminate|exact S0|exact Is|].
    - unfold l. constructor; [exact F|]. constructor; [apply fine_ln, name_lit; reflexivity|].
      clear - N. induction N as [|x xs Nx N IH]; [constructor|]. cbn [map concat]. apply Forall_app. split; [now apply modlines_fine|exact IH].
    - apply modify_record with (d := b); auto.
  Qed.
  Lemma modify_roundtrip_ldif d ms : ldif_dn_ok d -> Forall ldif_delta_ok ms ->
    exists t ms', modify_asLDIF d ms = Ok t /\ Forall2 same_mod ms ms' /\
    (short_lines t -> parse lower io vio true [t] = ([RModify d ms'], Ok tt)).
  Proof.
    intros O F. destruct (modify_process d ms O F) as (t & ms' & A & Sm & P). exists t, ms'. split; [exact A|]. split; [exact Sm|].
    intros S0. apply idle_parse, P; auto using p0_idle.
  Qed.

  (** splitlines undoes the joining of lines without "\n" and "\r" *)
  Lemma splitlines_line l : without 10 l -> without 13 l -> forall r cur, splitlines_loop (l ++ NL :: r) cur = (rev cur ++ l) :: splitlines_loop r [].
  Proof.
    induction l as [|c l IH]; intros W1 W2 r cur; cbn [app splitlines_loop].
    - change (b2z NL =? 10) with true. cbn iota. now rewrite app_nil_r.
    - assert (C1 := W1 c (or_introl eq_refl)). assert (C2 := W2 c (or_introl eq_refl)).
      replace (b2z c =? 10) with false by lia. replace (b2z c =? 13) with false by lia.
      rewrite IH; [|intros x I; apply W1; now right|intros x I; apply W2; now right]. cbn [rev]. now rewrite <- app_assoc.
  Qed.
  Lemma splitlines_text ls : Forall (fun l => without 10 l /\ without 13 l) ls -> splitlines (text_of ls) = ls.
  Proof.
    unfold splitlines. induction 1 as [|l ls (W1 & W2) F IH]; [reflexivity|]. unfold text_of in *. cbn [map concat].
    rewrite <- app_assoc. change ([NL] ++ ?x) with (NL :: x). cbn [app]. rewrite splitlines_line by assumption. now rewrite IH.
  Qed.

  Lemma lower_13 a b : lower_bytes a = lower_bytes b -> without 13 a -> without 13 b.
  Proof.
    intros E W x I X. assert (J : In (lower_byte x) (lower_bytes a)) by (rewrite E; now apply in_map).
    apply in_map_iff in J as (y & Y & J). apply (W y J).
    assert (X2 : lower_byte x = x) by (unfold lower_byte; replace (65 <=? b2z x) with false by lia; reflexivity).
    rewrite X2 in Y. unfold lower_byte in Y. destruct ((65 <=? b2z y) && (b2z y <=? 90)) eqn:C; [|now subst].
    exfalso. rewrite <- Y in X. rewrite b2z_z2b_small in X; lia.
  Qed.
  Lemma ln_13 k v : without 13 k -> without 13 (ln k v).
  Proof.
    intros W. unfold ln. destruct (needs_base64 v) eqn:E; (apply without_app; [exact W|]).
    - apply without_app; [now apply without_lit|]. pose proof (b64_line v) as F. rewrite Forall_forall in F. intros b I. apply F, I.
    - apply without_app; [now apply without_lit|]. now apply not_b64.
  Qed.

  Lemma add_process e : ldif_entry_ok lower e ->
    (forall a k, In a (e_attrs e) -> to_bytes (s_key a) = Ok k -> without 13 k) ->
    (exists k v, says e k v) ->
    exists t e', add_asLDIF lower oc e = Ok t /\ same_entry e e' /\ (exists kvs, e' = new_entry lower (e_dn e) (items (add_all [] kvs))) /\
    (short_lines t -> forall s, idle0 s -> process lower io vio true t s = ([RAdd e'], Ok ([], waiting s))).
  Proof.
    intros O K13 (k & v & Ne). destruct (entry_lines e O) as (t & kvs & W & F & Nm & (b & P & R) & Se & Em & (b' & U & Et) & Sk).
    unfold add_asLDIF. rewrite W. cbn [bind].
    assert (Kn : kvs <> []) by (intros ->; now apply (Em eq_refl k v)).
    rewrite splitlines_text.
    2:{ apply Forall_forall. intros x I. split.
        - pose proof (fine_nl _ F) as Q. rewrite Forall_forall in Q. auto.
        - apply in_app_or in I as [[<-|I]|[<-|[]]]; [|..|intros ? []].
          + rewrite Et. apply without_app; [now apply without_lit|exact U].
          + unfold lns in I. apply in_map_iff in I as ((kb & vb) & <- & I). cbn [fst snd]. apply ln_13.
            destruct (Sk kb vb I) as (a & ab & Ia & Ta & La & _). eapply lower_13; eauto. }
    cbn [app]. replace (starts_with (B "dn:") t) with true by (now rewrite Et).
    eexists. eexists. split; [reflexivity|]. split; [exact Se|]. split; [now exists kvs|].
    set (l := t :: ln (B "changetype") (B "add") :: lns kvs).
    change (t :: B "changetype: add" :: lns kvs ++ [[]]) with (l ++ [[]]). fold (text_of (l ++ [[]])). intros S0 s Is.
    inversion F as [|? ? Ft Fr]; subst x l0. apply record_process; [|discriminate|exact S0|exact Is|].
    - unfold l. constructor; [exact Ft|]. constructor; [apply fine_ln, name_lit; reflexivity|exact Fr].
    - apply add_record with (d := b); auto.
  Qed.
  Lemma add_roundtrip e : ldif_entry_ok lower e ->
    (forall a k, In a (e_attrs e) -> to_bytes (s_key a) = Ok k -> without 13 k) ->
    (exists k v, says e k v) ->
    exists t e', add_asLDIF lower oc e = Ok t /\ same_entry e e' /\
    (short_lines t -> parse lower io vio true [t] = ([RAdd e'], Ok tt)).
  Proof.
    intros O K N. destruct (add_process e O K N) as (t & e' & A & Se & _ & P). exists t, e'. split; [exact A|]. split; [exact Se|].
    intros S0. apply idle_parse, P; auto using p0_idle.
  Qed.
End Round.
