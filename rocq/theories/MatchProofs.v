(** Proofs for MatchModel. *)
From Verif Require Import Base BaseFacts Utf8Model Utf8Proofs DnModel EntryModel EntrySpec EntryProofs LdapSpec MatchModel MatchSpec.

Section M.
  Variable lower : str -> str.
  Notation lowv := (lowv lower).

  Lemma names_lowv kt e a s t : keys_ok lower kt e -> utf8_decode a = Ok t -> In s (e_attrs e) ->
    (names lower a (s_key s) <-> lowv (s_key s) = lowv (if kt then PStr t else PBytes a)).
  Proof.
    intros (F & _) T I. rewrite Forall_forall in F. specialize (F s I). destruct kt, (s_key s) as [k|k]; cbn in F; try tauto; cbn.
    - split; [intros (t' & T' & E); congruence|]. intros [= E]. exists t. auto.
    - split; [congruence|]. now intros [= E].
  Qed.

  Lemma other_none kt e k : keys_ok lower kt e -> isstr k = negb kt -> dict_get lower k (e_attrs e) = None.
  Proof.
    intros (F & _) W. destruct (dict_get lower k (e_attrs e)) as [s|] eqn:D; [|reflexivity]. exfalso.
    apply dict_get_some in D as (I & E). rewrite Forall_forall in F. apply F in I. apply typed_isstr in I.
    apply (f_equal isstr) in E. rewrite !isstr_lowv in E. destruct kt; cbn in W; congruence.
  Qed.

  Definition found (e : entry) (a : bytes) (o : option aset) : Prop :=
    match o with
    | Some s => In s (e_attrs e) /\ names lower a (s_key s) /\ forall s', In s' (e_attrs e) -> names lower a (s_key s') -> s' = s
    | None => forall s, In s (e_attrs e) -> ~ names lower a (s_key s)
    end.
  Lemma find_named kt e a t : keys_ok lower kt e -> utf8_decode a = Ok t ->
    exists o, find_key lower (PBytes a) e = Ok o /\ find_key lower (PStr t) e = Ok o /\ found e a o.
  Proof.
    intros K T. pose proof (proj1 (utf8_iff a t) T) as T'. exists (dict_get lower (if kt then PStr t else PBytes a) (e_attrs e)).
    assert (FD : found e a (dict_get lower (if kt then PStr t else PBytes a) (e_attrs e))).
    { destruct (dict_get lower (if kt then PStr t else PBytes a) (e_attrs e)) as [s|] eqn:D.
      - apply dict_get_some in D as (I & E). split; [exact I|]. split; [now apply (names_lowv kt e a s t K T I)|].
        intros s' I' N. apply (names_lowv kt e a s' t K T I') in N. destruct K as (_ & ND). eapply lowkeys_inj; eauto. congruence.
      - intros s I N. apply (names_lowv kt e a s t K T I) in N. eapply dict_get_none; eauto. }
    unfold find_key. cbn [get_strings]. rewrite T, T'. cbn [bind fold_right].
    destruct kt.
    - rewrite (other_none true e (PBytes a) K eq_refl). destruct (dict_get lower (PStr t) (e_attrs e)); auto.
    - rewrite (other_none false e (PStr t) K eq_refl). destruct (dict_get lower (PBytes a) (e_attrs e)); auto.
  Qed.

  Definition is_some {A} (o : option A) : bool := match o with Some _ => true | None => false end.
  Lemma found_present e a o : found e a o -> (is_some o = true <-> exists s, In s (e_attrs e) /\ names lower a (s_key s)).
  Proof.
    destruct o as [s|]; cbn.
    - intros (I & N & _). split; [eauto|reflexivity].
    - intros H. split; [discriminate|]. intros (s & I & N). exfalso. eapply H; eauto.
  Qed.
  Lemma found_valued e a o P : found e a o ->
    (valued lower e a P <-> exists v, In v (match o with Some s => s_vals s | None => [] end) /\ P v).
  Proof.
    destruct o as [s|]; cbn.
    - intros (I & N & U). split.
      + intros (s' & v & I' & N' & V & Pv). rewrite (U s' I' N') in V. eauto.
      + intros (v & V & Pv). exists s, v. auto.
    - intros H. split; [intros (s & v & I & N & _); exfalso; eapply H; eauto|intros (v & [] & _)].
  Qed.

  Lemma lower_byte_ascii b : b2z (lower_byte b) < 128 <-> b2z b < 128.
  Proof.
    pose proof (b2z_range b). unfold lower_byte. destruct ((65 <=? b2z b) && (b2z b <=? 90)) eqn:E; [|tauto].
    apply andb_prop in E as (E1 & E2). rewrite b2z_z2b_small; lia.
  Qed.
  Lemma lower_byte_high b : 128 <= b2z b -> lower_byte b = b.
  Proof.
    intros H. unfold lower_byte. destruct ((65 <=? b2z b) && (b2z b <=? 90)) eqn:E; [|reflexivity].
    apply andb_prop in E as (E1 & E2). lia.
  Qed.
  Lemma lower_char c b : utf8_char c = Ok b -> exists d, utf8_char d = Ok (lower_bytes b).
  Proof.
    intros H. destruct (c <? 0x80) eqn:L.
    - unfold utf8_char in H. destruct (c <? 0) eqn:N; [discriminate|]. rewrite L in H. apply Ok_inj in H. subst b.
      unfold lower_bytes. cbn [map]. set (d := b2z (lower_byte (z2b c))). exists d.
      assert (D : 0 <= d < 128).
      { unfold d. split; [apply b2z_range|]. apply lower_byte_ascii. rewrite b2z_z2b_small; lia. }
      unfold utf8_char. destruct (d <? 0) eqn:?; [lia|]. destruct (d <? 0x80) eqn:?; [|lia]. unfold d. now rewrite z2b_b2z.
    - exists c. rewrite H. f_equal. unfold utf8_char in H. destruct (c <? 0) eqn:N; [discriminate|]. rewrite L in H.
      assert (M : forall x, 0 <= x mod 64 < 64) by (intros; apply Z.mod_pos_bound; lia).
      assert (HB : forall x, 128 <= x < 256 -> z2b x = lower_byte (z2b x)) by (intros x X; rewrite lower_byte_high; [reflexivity|rewrite b2z_z2b_small; lia]).
      repeat match type of H with context [if ?x then _ else _] => destruct x eqn:? end; try discriminate;
        apply Ok_inj in H; subst b; unfold lower_bytes; cbn [map]; repeat f_equal; apply HB;
        first [specialize (M c); lia | specialize (M (c / 64)); lia | specialize (M (c / 4096)); lia
              | assert (0 <= c / 64 <= 31) by (split; [apply Z.div_pos; lia|apply Z.div_le_upper_bound; lia]); lia
              | assert (0 <= c / 4096 <= 15) by (split; [apply Z.div_pos; lia|apply Z.div_le_upper_bound; lia]); lia
              | assert (0 <= c / 262144 <= 4) by (split; [apply Z.div_pos; lia|apply Z.div_le_upper_bound; lia]); lia].
  Qed.
  (** Lower-casing the ASCII letters of UTF-8 octets leaves UTF-8. *)
  Lemma lower_utf8 v : utf8 v -> utf8 (lower_bytes v).
  Proof.
    intros (s & D). apply utf8_iff in D. revert v D. induction s as [|c s IH]; intros v D; cbn [utf8_encode] in D.
    - apply Ok_inj in D. subst. exists []. reflexivity.
    - rewrite bind_ok in D. destruct D as (b & Cb & D). rewrite bind_ok in D. destruct D as (t & T & D). apply Ok_inj in D. subst v.
      destruct (IH t T) as (s' & S'). destruct (lower_char c b Cb) as (d & Dd). exists (d :: s'). apply utf8_iff.
      cbn [utf8_encode]. rewrite Dd. cbn [bind]. apply utf8_iff in S'. rewrite S'. cbn [bind]. unfold lower_bytes. now rewrite map_app.
  Qed.

  Lemma mem_lowers v l : mem v (lowers lower l) = true <-> exists x, In x l /\ lowv x = v.
  Proof.
    rewrite mem_In. unfold lowers. rewrite in_map_iff. split; intros (x & A & C); exists x; auto.
  Qed.

  Lemma any_cmp_spec cmp l : Forall (fun v => exists b, v = PBytes b) l ->
    exists r, any_cmp cmp l = Ok r /\ (r = true <-> exists v, In v l /\ match v with PBytes b => cmp b = true | _ => False end).
  Proof.
    induction 1 as [|v l (b & ->) F (r & IH & R)]; cbn [any_cmp as_bytes_value bind].
    - exists false. split; [reflexivity|]. split; [discriminate|]. intros (v & [] & _).
    - destruct (cmp b) eqn:C.
      + exists true. split; [reflexivity|]. split; [|reflexivity]. intros _. exists (PBytes b). split; [now left|exact C].
      + exists r. split; [exact IH|]. rewrite R. split; [intros (v & I & H); exists v; split; [now right|exact H]|].
        intros (v & [<-|I] & H); [congruence|eauto].
  Qed.

  Lemma cmp_valued e kt a s0 cmp : keys_ok lower kt e -> bytes_values e -> utf8_decode a = Ok s0 ->
    exists r, (do h <- has_key lower (PBytes a) e; if negb h then Ok false else do s <- getitem lower (PBytes a) e; any_cmp cmp (s_vals s)) = Ok r /\
      (r = true <-> valued lower e a (fun x => match x with PBytes b => cmp b = true | _ => False end)).
  Proof.
    intros K BV Ha. destruct (find_named kt e a s0 K Ha) as (o & F1 & _ & FD).
    unfold has_key, getitem. rewrite F1. cbn [bind]. pose proof (found_valued e a o) as FV. destruct o as [x|]; cbn [negb bind].
    - destruct (any_cmp_spec cmp (s_vals x)) as (r & R1 & R2).
      { destruct FD as (I & _). unfold bytes_values in BV. rewrite Forall_forall in BV. auto. }
      exists r. split; [exact R1|]. rewrite R2. symmetry. exact (FV _ FD).
    - exists false. split; [reflexivity|]. rewrite (FV _ FD). split; [discriminate|]. intros (v & [] & _).
  Qed.

  (** C27 *)
  Lemma matches_sat kt e : forall f (ord : Prop), keys_ok lower kt e -> (ord -> bytes_values e) -> plain ord f ->
    exists r, matches lower e f = Ok r /\ (r = true <-> sat lower e f).
  Proof.
    intros f ord K BV. induction f as [l IH|l IH|g IH|a v|a l|a v|a v|a|a v|r a v d] using filter_ind'; intros P; cbn [plain] in P; try contradiction.
    - cbn [matches sat]. induction l as [|g l IHl]; [exists true; tauto|]. destruct P as (Pg & Pl).
      destruct (Forall_inv IH Pg) as (b & M & S). rewrite M. cbn [bind]. destruct b; cbn [negb].
      + destruct (IHl (Forall_inv_tail IH) Pl) as (r & R & SR). exists r. split; [exact R|]. rewrite SR. tauto.
      + exists false. split; [reflexivity|]. split; [discriminate|]. intros (X & _). apply S in X. discriminate.
    - cbn [matches sat]. induction l as [|g l IHl]; [exists false; split; [reflexivity|split; [discriminate|tauto]]|]. destruct P as (Pg & Pl).
      destruct (Forall_inv IH Pg) as (b & M & S). rewrite M. cbn [bind]. destruct b.
      + exists true. split; [reflexivity|]. tauto.
      + destruct (IHl (Forall_inv_tail IH) Pl) as (r & R & SR). exists r. split; [exact R|]. rewrite SR.
        assert (~ sat lower e g) by (intros X; apply S in X; discriminate). tauto.
    - destruct (IH P) as (b & M & S). cbn [matches sat]. rewrite M. cbn [bind]. exists (negb b). split; [reflexivity|].
      rewrite <- S. destruct b; cbn; split; congruence.
    - destruct P as ((s & Ha) & Uv). cbn [matches sat]. destruct (lower_utf8 v Uv) as (lv & LV).
      destruct (find_named kt e a s K Ha) as (o & F1 & _ & FD). cbn [get_strings]. rewrite LV. cbn [bind any_value].
      unfold get_values. rewrite F1. cbn [bind]. pose proof (found_valued e a o (fun x => equals_ci lower x v) FD) as FV.
      set (vals := match o with Some s => s_vals s | None => [] end) in *.
      destruct (mem (PBytes (lower_bytes v)) (lowers lower vals)) eqn:M1.
      + exists true. split; [reflexivity|]. split; [|reflexivity]. intros _. rewrite FV. apply mem_lowers in M1 as (x & I & E).
        exists x. split; [exact I|]. destruct x; [discriminate|]. cbn in *. congruence.
      + destruct (mem (PStr lv) (lowers lower vals)) eqn:M2.
        * exists true. split; [reflexivity|]. split; [|reflexivity]. intros _. rewrite FV. apply mem_lowers in M2 as (x & I & E).
          exists x. split; [exact I|]. destruct x; [|discriminate]. cbn in *. injection E as ->. now apply utf8_iff.
        * exists false. split; [reflexivity|]. split; [discriminate|]. rewrite FV. intros (x & I & E). exfalso. destruct x as [x|x]; cbn in E.
          -- assert (mem (PStr lv) (lowers lower vals) = true); [|congruence]. apply mem_lowers. exists (PStr x). split; [exact I|].
             cbn. apply utf8_iff in E. congruence.
          -- assert (mem (PBytes (lower_bytes v)) (lowers lower vals) = true); [|congruence]. apply mem_lowers. exists (PBytes x). split; [exact I|].
             cbn. congruence.
    - destruct P as (Po & s & Ha). cbn [matches sat]. apply (cmp_valued e kt a s _ K (BV Po) Ha).
    - destruct P as (Po & s & Ha). cbn [matches sat]. apply (cmp_valued e kt a s _ K (BV Po) Ha).
    - destruct P as (s & Ha). cbn [matches sat get_strings]. rewrite Ha. cbn [bind any_key].
      destruct (find_named kt e a s K Ha) as (o & F1 & F2 & FD). unfold has_key. rewrite F1. cbn [bind].
      pose proof (found_present e a o FD) as FP. destruct o; cbn [is_some] in FP; [exists true; tauto|].
      rewrite F2. cbn [bind]. exists false. split; [reflexivity|exact FP].
  Qed.
End M.

(** ** Substrings *)
Lemma starts_cut p l s : starts_with p l = true -> l = lower_bytes s ->
  exists a b, s = a ++ b /\ lower_bytes a = p.
Proof.
  intros H E. apply starts_with_spec in H as (t & ->). symmetry in E. unfold lower_bytes in E. apply map_eq_app in E as (a & b & -> & A & _). eauto.
Qed.

Lemma find_from_some p : forall s y, find_from p s (lower_bytes s) = Some y ->
  exists a t, s = a ++ y /\ lower_bytes y = p ++ t.
Proof.
  induction s as [|c s IH]; intros y; cbn [lower_bytes map find_from].
  - destruct (starts_with p []) eqn:S; [|discriminate]. intros [= <-]. apply starts_with_spec in S as (t & S). exists [], t. split; [reflexivity|exact S].
  - destruct (starts_with p (lower_byte c :: map lower_byte s)) eqn:S.
    + intros [= <-]. apply starts_with_spec in S as (t & S). exists [], t. split; [reflexivity|exact S].
    + intros H. apply IH in H as (a & t & -> & T). exists (c :: a), t. auto.
Qed.
Lemma find_from_first p : forall a z t, lower_bytes z = p ++ t ->
  exists b y, find_from p (a ++ z) (lower_bytes (a ++ z)) = Some y /\ y = b ++ z.
Proof.
  induction a as [|c a IH]; intros z t Z.
  - exists [], z. cbn [app]. split; [|reflexivity]. assert (S : starts_with p (lower_bytes z) = true) by (apply starts_with_spec; eauto).
    destruct z; unfold lower_bytes in *; cbn [map find_from] in *; now rewrite S.
  - destruct (IH z t Z) as (b & y & F & E). cbn [app lower_bytes map find_from].
    destruct (starts_with p (lower_byte c :: map lower_byte (a ++ z))) eqn:S.
    + exists (c :: a), (c :: a ++ z). auto.
    + exists b, y. auto.
Qed.

(** The middle parts as the loop takes them. *)
Fixpoint chain (ms : list bytes) (x : bytes) : Prop :=
  match ms with [] => True | m :: r => exists y, cut_at m x = Some y /\ chain r y end.

Lemma as_bytes_all l : mapR as_bytes_value (map PBytes l) = Ok l.
Proof. induction l as [|x l IH]; cbn; [reflexivity|]. rewrite IH. reflexivity. Qed.

Lemma sub_any_spec ms : forall l, exists r, sub_any (map (fun m => (SAny, m)) ms) (map PBytes l) = Ok r /\
  (r = true <-> exists x, In x l /\ chain ms x).
Proof.
  induction ms as [|m ms IH]; intros l; destruct l as [|x l]; cbn [map sub_any].
  1,3: exists false; split; [reflexivity|]; split; [discriminate|]; intros (y & [] & _).
  - exists true. split; [reflexivity|]. split; [|reflexivity]. intros _. exists x. split; [now left|exact I].
  - pose proof (as_bytes_all (x :: l)) as A. cbn [map] in A. rewrite A. cbn [bind].
    assert (E : forall l', flat_map (fun x => match cut_at m x with Some y => [PBytes y] | None => [] end) l'
                = map PBytes (flat_map (fun x => match cut_at m x with Some y => [y] | None => [] end) l')).
    { induction l' as [|y l' IHl]; [reflexivity|]. cbn [flat_map]. rewrite map_app, IHl. f_equal. now destruct (cut_at m y). }
    rewrite E. destruct (IH (flat_map (fun x => match cut_at m x with Some y => [y] | None => [] end) (x :: l))) as (r & R & S).
    exists r. split; [exact R|]. rewrite S. split.
    + intros (y & I & C). apply in_flat_map in I as (z & I & J). exists z. split; [exact I|]. cbn [chain]. destruct (cut_at m z); [|destruct J].
      destruct J as [->|[]]. eauto.
    + intros (z & I & y & C & D). exists y. split; [|exact D]. apply in_flat_map. exists z. rewrite C. split; [exact I|now left].
Qed.

(** Exactly: each part starts where the one before starts, or later. *)
Lemma chain_spec ms : forall x, chain ms x <-> in_order_overlapping (map lower_bytes ms) (lower_bytes x).
Proof.
  assert (MONO : forall l a v, in_order_overlapping l v -> in_order_overlapping l (a ++ v)).
  { destruct l; cbn; [auto|]. intros a v (p & q & t & -> & E & R). exists (a ++ p), q, t. rewrite app_assoc. auto. }
  induction ms as [|m ms IH]; intros x; cbn [chain map in_order_overlapping]; [tauto|]. split.
  - intros (y & C & D). apply find_from_some in C as (a & t & -> & T). exists (lower_bytes a), (lower_bytes y), t.
    split; [unfold lower_bytes; apply map_app|]. split; [exact T|now apply IH].
  - intros (p & q & t & E & T & R). unfold lower_bytes in E at 1. apply map_eq_app in E as (a & z & -> & A & Z).
    change (map lower_byte z) with (lower_bytes z) in Z. subst q.
    destruct (find_from_first (lower_bytes m) a z t T) as (b & y & F & ->). exists (b ++ z). split; [exact F|].
    apply IH. unfold lower_bytes at 2. rewrite map_app. apply MONO. exact R.
Qed.
Lemma in_order_overlap l : forall v, in_order l v -> in_order_overlapping l v.
Proof.
  assert (MONO : forall l a v, in_order_overlapping l v -> in_order_overlapping l (a ++ v)).
  { destruct l0; cbn; [auto|]. intros a v (p & q & t & -> & E & R). exists (a ++ p), q, t. rewrite app_assoc. auto. }
  induction l as [|m l IH]; intros v; cbn; [auto|]. intros (p & q & -> & R). exists p, (m ++ q), q. split; [reflexivity|].
  split; [reflexivity|]. apply MONO. auto.
Qed.

Lemma zlen_lower x : zlen (lower_bytes x) = zlen x.
Proof. unfold zlen, lower_bytes. now rewrite map_length. Qed.
Lemma lower_bytes_app a b : lower_bytes (a ++ b) = lower_bytes a ++ lower_bytes b.
Proof. apply map_app. Qed.

(** What the first two steps keep of a value. *)
Definition cut_initial (i : option bytes) (x : bytes) : option bytes :=
  match i with
  | None => Some x
  | Some p => if starts_with (lower_bytes p) (lower_bytes x) then Some (zdrop (zlen p) x) else None
  end.
Definition cut_final (n : Z) (f : option bytes) (x : bytes) : option bytes :=
  match f with
  | None => Some x
  | Some p => if ends_with (lower_bytes p) (lower_bytes x) then Some (drop_last n x) else None
  end.
Definition choose {A C} (g : A -> option C) (l : list A) : list C :=
  flat_map (fun x => match g x with Some y => [y] | None => [] end) l.
Lemma in_choose {A C} (g : A -> option C) l y : In y (choose g l) <-> exists x, In x l /\ g x = Some y.
Proof.
  unfold choose. rewrite in_flat_map. split.
  - intros (x & I & J). exists x. split; [exact I|]. destruct (g x); [destruct J as [->|[]]; reflexivity|destruct J].
  - intros (x & I & E). exists x. rewrite E. split; [exact I|now left].
Qed.
Lemma choose_some {A} (l : list A) : choose Some l = l.
Proof. induction l; cbn; [reflexivity|]. f_equal. exact IHl. Qed.
Lemma map_filter_choose (t : bytes -> bool) (k : bytes -> bytes) l :
  map (fun x => PBytes (k x)) (List.filter t l) = map PBytes (choose (fun x => if t x then Some (k x) else None) l).
Proof. induction l as [|x l IH]; cbn; [reflexivity|]. destruct (t x); cbn; rewrite IH; reflexivity. Qed.

Definition first_len (parts : list (subkind * bytes)) : Z := match parts with (_, p) :: _ => zlen p | [] => 0 end.

Lemma sub_steps i ms f l :
  (do (p1, m1) <- sub_initial (parts_of i ms f) (map PBytes l);
   do (p2, m2) <- sub_final (parts_of i ms f) p1 m1; sub_any p2 m2)
  = sub_any (map (fun m => (SAny, m)) ms)
      (map PBytes (choose (cut_final (first_len (parts_of i ms f)) f) (choose (cut_initial i) l))).
Proof.
  assert (S1 : sub_initial (parts_of i ms f) (map PBytes l) =
               Ok (map (fun m => (SAny, m)) ms ++ opt_list SFinal f, map PBytes (choose (cut_initial i) l))).
  { unfold sub_initial, parts_of. destruct i as [i|]; cbn [opt_list app].
    - rewrite as_bytes_all. cbn [bind]. rewrite map_filter_choose. reflexivity.
    - change (choose (cut_initial None) l) with (choose Some l). rewrite choose_some. destruct ms; cbn; [destruct f; reflexivity|reflexivity]. }
  rewrite S1. cbn [bind]. set (l1 := choose (cut_initial i) l). 
  assert (S2 : sub_final (parts_of i ms f) (map (fun m => (SAny, m)) ms ++ opt_list SFinal f) (map PBytes l1) =
               Ok (map (fun m => (SAny, m)) ms, map PBytes (choose (cut_final (first_len (parts_of i ms f)) f) l1))).
  { unfold sub_final. destruct f as [f|]; cbn [opt_list].
    - assert (L : last (parts_of i ms (Some f)) (SAny, []) = (SFinal, f)) by (unfold parts_of; rewrite app_assoc; apply last_last).
      rewrite L, removelast_last, as_bytes_all. cbn [bind]. rewrite map_filter_choose. fold (first_len (parts_of i ms (Some f))).
      destruct (map (fun m => (SAny, m)) ms); reflexivity.
    - rewrite app_nil_r. change (choose (cut_final (first_len (parts_of i ms None)) None) l1) with (choose Some l1). rewrite choose_some. destruct ms as [|m ms] using rev_ind; [reflexivity|].
      assert (L : last (parts_of i (ms ++ [m]) None) (SAny, []) = (SAny, m)).
      { unfold parts_of. cbn [opt_list]. rewrite app_nil_r, map_app, app_assoc. cbn [map]. apply last_last. }
      rewrite L. now destruct (map (fun m0 => (SAny, m0)) (ms ++ [m])). }
  rewrite S2. reflexivity.
Qed.

Lemma ends_lower p x : ends_with (lower_bytes p) (lower_bytes x) = true <-> exists a b, x = a ++ b /\ lower_bytes b = lower_bytes p.
Proof.
  rewrite ends_with_spec. split.
  - intros (t & E). unfold lower_bytes in E at 1. apply map_eq_app in E as (a & b & -> & _ & E). eauto.
  - intros (a & b & -> & E). rewrite lower_bytes_app, E. eauto.
Qed.
Lemma starts_lower p x : starts_with (lower_bytes p) (lower_bytes x) = true <-> exists a b, x = a ++ b /\ lower_bytes a = lower_bytes p.
Proof.
  rewrite starts_with_spec. split.
  - intros (t & E). unfold lower_bytes in E at 1. apply map_eq_app in E as (a & b & -> & E & _). eauto.
  - intros (a & b & -> & E). rewrite lower_bytes_app, E. eauto.
Qed.
Lemma lower_len a b : lower_bytes a = lower_bytes b -> zlen a = zlen b.
Proof. intros E. rewrite <- (zlen_lower a), E. apply zlen_lower. Qed.

(** What is left after the initial part. *)
Lemma cut_initial_spec i x y : cut_initial i x = Some y <-> exists a, x = a ++ y /\ lower_bytes a = lower_bytes (oget i).
Proof.
  destruct i as [p|]; cbn [cut_initial oget].
  - destruct (starts_with (lower_bytes p) (lower_bytes x)) eqn:S.
    + apply starts_lower in S as (a & b & -> & E). pose proof (lower_len _ _ E) as L. rewrite <- L, zdrop_app. split.
      * intros [= <-]. eauto.
      * intros (a' & E1 & E2). assert (zlen a' = zlen a) by (rewrite L; now apply lower_len).
        assert (length a = length a') by (unfold zlen in *; lia).
        f_equal. symmetry. clear - E1 H0. revert a' E1 H0. induction a; destruct a'; cbn; intros; try discriminate; [auto|]. injection E1 as _ E1. eapply IHa; eauto.
    + split; [discriminate|]. intros (a & -> & E). assert (starts_with (lower_bytes p) (lower_bytes (a ++ y)) = true) by (apply starts_lower; eauto). congruence.
  - split; [intros [= <-]; exists []; auto|]. intros (a & -> & E). destruct a; [reflexivity|discriminate].
Qed.

Lemma shape_lower i ms f x :
  shape (option_map lower_bytes i) (map lower_bytes ms) (option_map lower_bytes f) (lower_bytes x) <->
  exists a mid b, x = a ++ mid ++ b /\ lower_bytes a = lower_bytes (oget i) /\ lower_bytes b = lower_bytes (oget f) /\
    in_order (map lower_bytes ms) (lower_bytes mid).
Proof.
  assert (G : forall o, oget (option_map lower_bytes o) = lower_bytes (oget o)) by (intros [o|]; reflexivity).
  unfold shape. rewrite !G. split.
  - intros (mid & E & R). unfold lower_bytes in E at 1. apply map_eq_app in E as (a & r & -> & A & E). apply map_eq_app in E as (m & b & -> & M & E).
    exists a, m, b. split; [reflexivity|]. split; [exact A|]. split; [exact E|]. unfold lower_bytes at 2. now rewrite M.
  - intros (a & mid & b & -> & A & E & R). exists (lower_bytes mid). rewrite !lower_bytes_app, A, E. auto.
Qed.

Lemma drop_last_app n (m b : bytes) : 0 < n <= zlen b -> exists b1 b2, b = b1 ++ b2 /\ zlen b2 = n /\ drop_last n (m ++ b) = m ++ b1.
Proof.
  intros H. set (k := zlen b - n). exists (ztake k b), (zdrop k b).
  assert (L : b = ztake k b ++ zdrop k b) by (symmetry; apply ztake_zdrop).
  split; [exact L|]. split.
  - rewrite zlen_zdrop; unfold k; lia.
  - unfold drop_last. destruct (n =? 0) eqn:E; [lia|]. rewrite L at 2. rewrite app_assoc.
    replace (zlen (m ++ b) - n) with (zlen (m ++ ztake k b)); [apply ztake_app|].
    rewrite !zlen_app, zlen_ztake; unfold k; lia.
Qed.

Lemma in_order_post l : forall v t, in_order l v -> in_order l (v ++ t).
Proof.
  induction l as [|m l IH]; cbn; [auto|]. intros v t (p & q & -> & R). exists p, (q ++ t). rewrite <- !app_assoc. auto.
Qed.

(** When the final part is cut at the right place. *)
Definition value_ok (i : option bytes) (ms : list bytes) (f : option bytes) (x : bytes) : Prop :=
  exists y z, cut_initial i x = Some y /\ cut_final (first_len (parts_of i ms f)) f y = Some z /\ chain ms z.

Lemma value_complete i ms f x : (ms = [] \/ final_cut_within i ms f) ->
  shape (option_map lower_bytes i) (map lower_bytes ms) (option_map lower_bytes f) (lower_bytes x) -> value_ok i ms f x.
Proof.
  intros W S. apply shape_lower in S as (a & mid & b & -> & A & E & R).
  exists (mid ++ b). destruct f as [f|]; cbn [oget cut_final] in *.
  - assert (T : ends_with (lower_bytes f) (lower_bytes (mid ++ b)) = true) by (apply ends_lower; eauto).
    rewrite T. eexists. split; [apply cut_initial_spec; eauto|]. split; [reflexivity|].
    destruct W as [->|W]; [exact I|]. cbn [final_cut_within] in W. rewrite <- (lower_len _ _ E) in W.
    change (match parts_of i ms (Some f) with (_, p) :: _ => zlen p | [] => 0 end) with (first_len (parts_of i ms (Some f))) in W.
    destruct (drop_last_app _ mid b W) as (b1 & b2 & -> & _ & ->).
    apply chain_spec, in_order_overlap. rewrite lower_bytes_app. now apply in_order_post.
  - destruct b; [|discriminate]. rewrite app_nil_r. exists mid. split; [apply cut_initial_spec; eauto|]. split; [reflexivity|].
    apply chain_spec, in_order_overlap. exact R.
Qed.

Lemma value_sound i ms f x : (ms = [] \/ (exists m, ms = [m]) /\ final_cut_exact i ms f) ->
  value_ok i ms f x -> shape (option_map lower_bytes i) (map lower_bytes ms) (option_map lower_bytes f) (lower_bytes x).
Proof.
  intros W (y & z & C1 & C2 & C3). apply cut_initial_spec in C1 as (a & -> & A). apply shape_lower.
  assert (O : in_order (map lower_bytes ms) (lower_bytes z)).
  { destruct W as [->|((m & ->) & _)]; [exact I|]. apply chain_spec in C3. cbn in *. destruct C3 as (p & q & t & -> & -> & _). eauto. }
  destruct f as [f|]; cbn [oget cut_final] in *.
  - destruct (ends_with (lower_bytes f) (lower_bytes y)) eqn:T; [|discriminate]. apply ends_lower in T as (m & b & -> & E). injection C2 as <-.
    exists a, m, b. split; [reflexivity|]. split; [exact A|]. split; [exact E|].
    destruct W as [->|(_ & W)]; [exact I|]. cbn [final_cut_exact] in W.
    change (match parts_of i ms (Some f) with (_, p) :: _ => zlen p | [] => 0 end) with (first_len (parts_of i ms (Some f))) in W.
    rewrite <- (lower_len _ _ E) in W.
    destruct (drop_last_app (first_len (parts_of i ms (Some f))) m b) as (b1 & b2 & Eb & L & D); [lia|]. rewrite D in O.
    assert (b1 = []) as ->; [|now rewrite app_nil_r in O].
    assert (zlen b = zlen b1 + zlen b2) by (rewrite Eb; apply zlen_app). destruct b1; [reflexivity|]. rewrite zlen_cons in *. pose proof (zlen_nonneg b1). lia.
  - injection C2 as <-. exists a, y, []. rewrite app_nil_r. auto.
Qed.

Section M2.
  Variable lower : str -> str.

  Lemma matches_substr kt e a i ms f : keys_ok lower kt e -> bytes_values e -> utf8 a ->
    exists r, matches lower e (FSubstr a (parts_of i ms f)) = Ok r /\
      (r = true <-> valued lower e a (fun x => exists b, x = PBytes b /\ value_ok i ms f b)).
  Proof.
    intros K BV (s & Ha). cbn [matches]. destruct (find_named lower kt e a s K Ha) as (o & F1 & _ & FD).
    unfold has_key, getitem. rewrite F1. cbn [bind]. pose proof (found_valued lower e a o (fun x => exists b, x = PBytes b /\ value_ok i ms f b) FD) as FV.
    destruct o as [x|]; cbn [negb bind] in *.
    - assert (exists l, s_vals x = map PBytes l) as (l & L).
      { destruct FD as (I & _). unfold bytes_values in BV. rewrite Forall_forall in BV. specialize (BV x I). clear - BV.
        induction BV as [|v vs (b & ->) F (l & ->)]; [exists []; reflexivity|exists (b :: l); reflexivity]. }
      rewrite L in *. rewrite sub_steps. destruct (sub_any_spec ms (choose (cut_final (first_len (parts_of i ms f)) f) (choose (cut_initial i) l))) as (r & R & S).
      exists r. split; [exact R|]. rewrite S, FV. split.
      + intros (z & I & C). apply in_choose in I as (y & I & C2). apply in_choose in I as (w & I & C1).
        exists (PBytes w). split; [now apply in_map|]. exists w. split; [reflexivity|]. exists y, z. auto.
      + intros (v & I & b & -> & y & z & C1 & C2 & C3). apply in_map_iff in I as (b' & [= ->] & I).
        exists z. split; [|exact C3]. apply in_choose. exists y. split; [|exact C2]. apply in_choose. eauto.
    - exists false. split; [reflexivity|]. rewrite FV. split; [discriminate|]. intros (v & [] & _).
  Qed.

  (** C28, exact *)
  Lemma substr_exact kt e a i ms f : keys_ok lower kt e -> bytes_values e -> utf8 a ->
    (ms = [] \/ (exists m, ms = [m]) /\ final_cut_exact i ms f) ->
    exists r, matches lower e (FSubstr a (parts_of i ms f)) = Ok r /\ (r = true <-> valued lower e a (has_shape i ms f)).
  Proof.
    intros K BV U W. destruct (matches_substr kt e a i ms f K BV U) as (r & R & S). exists r. split; [exact R|]. rewrite S.
    split; intros (s & v & I & N & V & P); exists s, v; (split; [exact I|]); (split; [exact N|]); (split; [exact V|]).
    - destruct P as (b & -> & P). cbn. now apply value_sound.
    - destruct v as [v|v]; cbn in P; [destruct P|]. exists v. split; [reflexivity|]. apply value_complete; [|exact P].
      destruct W as [->|(_ & W)]; [now left|right]. destruct f; cbn in *; lia.
  Qed.
  (** C28, nothing missed *)
  Lemma substr_complete kt e a i ms f : keys_ok lower kt e -> bytes_values e -> utf8 a ->
    (ms = [] \/ final_cut_within i ms f) -> valued lower e a (has_shape i ms f) ->
    matches lower e (FSubstr a (parts_of i ms f)) = Ok true.
  Proof.
    intros K BV U W (s & v & I & N & V & P). destruct (matches_substr kt e a i ms f K BV U) as (r & R & S). rewrite R. f_equal. apply S.
    exists s, v. repeat (split; [assumption|]). destruct v as [v|v]; cbn in P; [destruct P|]. exists v. split; [reflexivity|]. now apply value_complete.
  Qed.
  (** Without a final part, exactly what the loop accepts. *)
  Lemma substr_overlapping kt e a i ms : keys_ok lower kt e -> bytes_values e -> utf8 a ->
    exists r, matches lower e (FSubstr a (parts_of i ms None)) = Ok r /\
      (r = true <-> valued lower e a (fun v => exists b p q, v = PBytes b /\ lower_bytes b = p ++ q /\ p = lower_bytes (oget i) /\
                                        in_order_overlapping (map lower_bytes ms) q)).
  Proof.
    intros K BV U. destruct (matches_substr kt e a i ms None K BV U) as (r & R & S). exists r. split; [exact R|]. rewrite S.
    split; intros (s & v & I & N & V & P); exists s, v; (split; [exact I|]); (split; [exact N|]); (split; [exact V|]).
    - destruct P as (b & -> & y & z & C1 & C2 & C3). cbn in C2. injection C2 as <-. apply cut_initial_spec in C1 as (p & -> & A).
      apply chain_spec in C3. exists (p ++ y), (lower_bytes p), (lower_bytes y). rewrite lower_bytes_app. auto.
    - destruct P as (b & p & q & -> & E & -> & O). exists b. split; [reflexivity|]. unfold lower_bytes in E at 1.
      apply map_eq_app in E as (x & y & -> & A & Y). exists y, y. split; [apply cut_initial_spec; exists x; auto|]. split; [reflexivity|].
      apply chain_spec. unfold lower_bytes at 2. now rewrite Y.
  Qed.
End M2.
