(** Attribute sets, entries and modifications: proofs of C21, C22, C24, C25. *)
From Coq Require Import Permutation.
From Verif Require Import BaseFacts Utf8Model Utf8Proofs DnModel DnSpec DnProofs EntryModel EntrySpec.

(** ** Sets *)
Lemma mem_In v l : mem v l = true <-> In v l.
Proof.
  unfold mem. rewrite existsb_exists. split.
  - intros (x & I & E). apply pyval_eqb_eq in E. now subst.
  - intros I. exists v. split; [exact I|apply pyval_eqb_refl].
Qed.
Lemma mem_false v l : mem v l = false <-> ~ In v l.
Proof. rewrite <- mem_In. destruct (mem v l); split; congruence. Qed.
Lemma In_set_add x v l : In x (set_add v l) <-> x = v \/ In x l.
Proof.
  unfold set_add. destruct (mem v l) eqn:E.
  - apply mem_In in E. split; [auto|intros [->|H]; auto].
  - rewrite in_app_iff. cbn. intuition congruence.
Qed.
Lemma NoDup_snoc {A} (l : list A) x : NoDup l -> ~ In x l -> NoDup (l ++ [x]).
Proof.
  intros H N. apply (Permutation_NoDup (Permutation_cons_append l x)). now constructor.
Qed.
Lemma NoDup_set_add v l : NoDup l -> NoDup (set_add v l).
Proof.
  intros H. unfold set_add. destruct (mem v l) eqn:E; [exact H|].
  apply mem_false in E. now apply NoDup_snoc.
Qed.
Lemma In_set_update x vs l : In x (set_update l vs) <-> In x l \/ In x vs.
Proof.
  unfold set_update. revert l. induction vs as [|v vs IH]; intros l; cbn [fold_left In]; [tauto|].
  rewrite IH, In_set_add. intuition congruence.
Qed.
Lemma NoDup_set_update vs l : NoDup l -> NoDup (set_update l vs).
Proof.
  unfold set_update. revert l. induction vs as [|v vs IH]; intros l H; cbn [fold_left]; [exact H|].
  apply IH. now apply NoDup_set_add.
Qed.
Lemma In_set_of x vs : In x (set_of vs) <-> In x vs.
Proof. unfold set_of. rewrite In_set_update. cbn. tauto. Qed.
Lemma NoDup_set_of vs : NoDup (set_of vs).
Proof. apply NoDup_set_update. constructor. Qed.
Lemma In_set_del x v l : In x (set_del v l) <-> In x l /\ x <> v.
Proof.
  unfold set_del. rewrite filter_In. destruct (pyval_eqb_spec v x); cbn; intuition congruence.
Qed.
Lemma NoDup_filter' {A} (f : A -> bool) l : NoDup l -> NoDup (filter f l).
Proof. apply NoDup_filter. Qed.
Lemma In_set_diff x a b : In x (set_diff a b) <-> In x a /\ ~ In x b.
Proof. unfold set_diff. rewrite filter_In, negb_true_iff, mem_false. tauto. Qed.
Lemma In_set_inter x a b : In x (set_inter a b) <-> In x a /\ In x b.
Proof. unfold set_inter. rewrite filter_In, mem_In. tauto. Qed.
Lemma set_eqb_iff a b : set_eqb a b = true <-> (forall x, In x a <-> In x b).
Proof.
  unfold set_eqb. rewrite andb_true_iff, !forallb_forall. split.
  - intros [H1 H2] x. split; intros I; apply mem_In; auto.
  - intros H. split; intros x I; apply mem_In, H, I.
Qed.

(** ** C21 *)
Lemma convertible_forms v : convertible v ->
  exists b s, to_bytes v = Ok b /\ utf8_encode s = Ok b /\
    (get_strings v = Ok [PBytes b; PStr s] /\ v = PBytes b \/ get_strings v = Ok [PStr s; PBytes b] /\ v = PStr s).
Proof.
  destruct v as [s|b]; intros [x X]; cbn [to_bytes get_strings].
  - exists x, s. rewrite X. cbn [bind]. auto.
  - exists b, x. rewrite X. cbn [bind]. apply utf8_iff in X. auto.
Qed.
Lemma forms_same v b s : utf8_encode s = Ok b -> (v = PBytes b \/ v = PStr s) <-> to_bytes v = Ok b.
Proof.
  intros E. split.
  - intros [-> | ->]; [reflexivity|exact E].
  - destruct v as [t|c]; cbn [to_bytes]; intros H.
    + right. f_equal. eapply encode_inj; eauto.
    + left. congruence.
Qed.

Lemma existsb_forms l b s : utf8_encode s = Ok b ->
  (In (PBytes b) l \/ In (PStr s) l) <-> denotes l b.
Proof.
  intros E. unfold denotes. split.
  - intros [I|I]; eexists; (split; [exact I|]); [reflexivity|exact E].
  - intros (v & I & T). apply (forms_same v b s E) in T as [-> | ->]; auto.
Qed.

Lemma aset_add_spec v l b : convertible v -> to_bytes v = Ok b -> one_form l ->
  exists l', aset_add v l = Ok l' /\ one_form l' /\ forall c, denotes l' c <-> denotes l c \/ c = b.
Proof.
  intros C T O. destruct (convertible_forms v C) as (b' & s & T' & E & F).
  assert (b' = b) by congruence. subst b'. unfold aset_add.
  assert (X : exists fs, get_strings v = Ok fs /\ (existsb (fun k => mem k l) fs = true <-> denotes l b)).
  { pose proof (existsb_forms l b s E) as EF. destruct F as [[G _]|[G _]]; eexists; (split; [exact G|]);
      cbn [existsb]; rewrite !orb_true_iff, !mem_In; rewrite <- EF; intuition congruence. }
  destruct X as (fs & G & X). rewrite G. cbn [bind]. eexists. split; [reflexivity|].
  destruct (existsb _ fs).
  - assert (D : denotes l b) by tauto. split; [exact O|]. intros c. split; [auto|intros [H| ->]; auto].
  - assert (D : ~ denotes l b) by (rewrite <- X; congruence). destruct O as (N & Fc & U).
    split; [split; [|split]|].
    + now apply NoDup_set_add.
    + apply Forall_forall. intros x I. apply In_set_add in I as [->|I]; [exact C|].
      rewrite Forall_forall in Fc. auto.
    + intros x y I J (c & Cx & Cy). apply In_set_add in I, J.
      destruct I as [->|I], J as [->|J]; auto.
      * exfalso. apply D. exists y. split; [exact J|congruence].
      * exfalso. apply D. exists x. split; [exact I|congruence].
      * apply U; auto. exists c. auto.
    + intros c. unfold denotes. split.
      * intros (x & I & Tx). apply In_set_add in I as [->|I]; [right; congruence|left; eauto].
      * intros [(x & I & Tx)| ->]; [exists x|exists v]; rewrite In_set_add; auto.
Qed.

Lemma aset_remove_spec v l b : convertible v -> to_bytes v = Ok b -> one_form l ->
  (denotes l b -> exists l', aset_remove v l = Ok l' /\ one_form l' /\ forall c, denotes l' c <-> denotes l c /\ c <> b) /\
  (~ denotes l b -> aset_remove v l = Err EKey).
Proof.
  intros C T O. destruct (convertible_forms v C) as (b' & s & T' & E & F).
  assert (b' = b) by congruence. subst b'. unfold aset_remove.
  assert (X : exists fs, get_strings v = Ok fs /\ (forall k, In k fs <-> to_bytes k = Ok b)).
  { destruct F as [[G _]|[G _]]; eexists; (split; [exact G|]); intros k; rewrite <- (forms_same k b s E); cbn; intuition congruence. }
  destruct X as (fs & G & X). rewrite G. cbn [bind]. destruct (find _ fs) as [k|] eqn:Fk.
  - apply find_some in Fk as (I & M). apply X in I. apply mem_In in M. split.
    + intros _. eexists. split; [reflexivity|]. destruct O as (N & Fc & U). split; [split; [|split]|].
      * now apply NoDup_filter.
      * apply Forall_forall. intros x J. apply In_set_del in J as [J _]. rewrite Forall_forall in Fc. auto.
      * intros x y J K. apply In_set_del in J as [J _], K as [K _]. auto.
      * intros c. unfold denotes. split.
        -- intros (x & J & Tx). apply In_set_del in J as [J Ne]. split; [eauto|]. intros ->. apply Ne.
           apply U; auto. exists b. auto.
        -- intros [(x & J & Tx) Ne]. exists x. rewrite In_set_del. repeat split; auto. intros ->. congruence.
    + intros D. exfalso. apply D. exists k. auto.
  - split; [|reflexivity]. intros (x & I & Tx). exfalso.
    apply X in Tx. pose proof (find_none _ _ Fk _ Tx) as M. cbn in M. apply mem_false in M. auto.
Qed.

Lemma spec_edits_ext xs : forall P Q, (forall c, P c <-> Q c) -> forall c, spec_edits xs P c <-> spec_edits xs Q c.
Proof.
  induction xs as [|[v|v] xs IH]; intros P Q H c; cbn [spec_edits]; [apply H|..]; apply IH; intros d; rewrite H; tauto.
Qed.

Lemma run_edits_spec xs : forall l, Forall (fun x => convertible (ed_value x)) xs -> one_form l ->
  one_form (run_edits xs l) /\ forall c, denotes (run_edits xs l) c <-> spec_edits xs (denotes l) c.
Proof.
  induction xs as [|x xs IH]; intros l F O; cbn [run_edits fold_left spec_edits]; [split; [exact O|tauto]|].
  pose proof (Forall_inv F) as Cx. pose proof (Forall_inv_tail F) as F'. fold (run_edits xs (run_edit x l)).
  destruct (convertible_forms _ Cx) as (b & s & T & _).
  destruct x as [v|v]; cbn [ed_value] in *.
  - destruct (aset_add_spec v l b Cx T O) as (l' & A & O' & D).
    assert (R : run_edit (EdAdd v) l = l') by (unfold run_edit; now rewrite A). rewrite R. destruct (IH l' F' O') as (O2 & D2). split; [exact O2|].
    intros c. rewrite D2. apply spec_edits_ext. intros d. rewrite D, T. intuition congruence.
  - destruct (aset_remove_spec v l b Cx T O) as (R1 & R2).
    assert (Dec : denotes l b \/ ~ denotes l b).
    { destruct (existsb (fun v => match to_bytes v with Ok c => bytes_eqb c b | _ => false end) l) eqn:Ex.
      - left. apply existsb_exists in Ex as (y & I & E). destruct (to_bytes y) eqn:Ty; [|discriminate].
        apply bytes_eqb_eq in E. subst. exists y. auto.
      - right. intros (y & I & Ty). assert (existsb (fun v => match to_bytes v with Ok c => bytes_eqb c b | _ => false end) l = true).
        { apply existsb_exists. exists y. rewrite Ty, bytes_eqb_refl. auto. } congruence. }
    destruct Dec as [Dn|Dn].
    + destruct (R1 Dn) as (l' & A & O' & D). 
      assert (R : run_edit (EdRemove v) l = l') by (unfold run_edit; now rewrite A). rewrite R.
      destruct (IH l' F' O') as (O2 & D2). split; [exact O2|].
      intros c. rewrite D2. apply spec_edits_ext. intros d. rewrite D, T. intuition congruence.
    + assert (R : run_edit (EdRemove v) l = l) by (unfold run_edit; now rewrite (R2 Dn)). rewrite R. destruct (IH l F' O) as (O2 & D2). split; [exact O2|].
      intros c. rewrite D2. apply spec_edits_ext. intros d. rewrite T. split; [|tauto].
      intros H. split; [exact H|]. intros [= <-]. auto.
Qed.

(** ** Entries with keys and values of one type *)
Definition isstr (v : pyval) : bool := match v with PStr _ => true | PBytes _ => false end.
Lemma typed_isstr t v : typed t v -> isstr v = t.
Proof. destruct t, v; cbn; tauto. Qed.
Lemma typed_forms t v : typed t v -> exists w, get_strings v = Ok [v; w] /\ isstr w = negb t.
Proof.
  destruct t, v as [s|b]; cbn; try tauto; intros [x X]; rewrite X; cbn [bind]; eauto.
Qed.
Lemma typed_bytes t v : typed t v -> exists b, to_bytes v = Ok b.
Proof. destruct t, v as [s|b]; cbn; try tauto; intros [x X]; eauto. Qed.
Lemma typed_bytes_inj t v w b : typed t v -> typed t w -> to_bytes v = Ok b -> to_bytes w = Ok b -> v = w.
Proof.
  destruct t, v as [s|c], w as [s'|c']; cbn; try tauto; intros _ _ H1 H2.
  - f_equal. eapply encode_inj; eauto.
  - congruence.
Qed.
Lemma isstr_mem t v l : Forall (typed t) l -> isstr v = negb t -> mem v l = false.
Proof.
  intros F H. apply mem_false. intros I. rewrite Forall_forall in F. apply F, typed_isstr in I.
  destruct t; cbn in H; congruence.
Qed.

Lemma aset_add_typed t v l : typed t v -> Forall (typed t) l -> aset_add v l = Ok (set_add v l).
Proof.
  intros T F. destruct (typed_forms t v T) as (w & G & W). unfold aset_add. rewrite G. cbn [bind existsb].
  rewrite (isstr_mem t w l F W), !orb_false_r. unfold set_add. now destruct (mem v l).
Qed.
Lemma aset_remove_typed t v l : typed t v -> Forall (typed t) l ->
  aset_remove v l = if mem v l then Ok (set_del v l) else Err EKey.
Proof.
  intros T F. destruct (typed_forms t v T) as (w & G & W). unfold aset_remove. rewrite G. cbn [bind find].
  rewrite (isstr_mem t w l F W). now destruct (mem v l).
Qed.

Section Entries.
  Variable lower : str -> str.
  Notation lowv := (lowv lower). Notation same_key := (same_key lower).
  Notation dict_get := (dict_get lower). Notation dict_upd := (dict_upd lower).
  Notation dict_set := (dict_set lower). Notation dict_del := (dict_del lower).
  Notation entry_ok := (entry_ok lower). Notation holds := (holds lower). Notation has := (has lower).

  Lemma isstr_lowv v : isstr (lowv v) = isstr v. Proof. now destruct v. Qed.
  Lemma same_key_iff k a : same_key k a = true <-> lowv (s_key a) = lowv k.
  Proof. unfold EntryModel.same_key. rewrite pyval_eqb_eq. split; congruence. Qed.
  Lemma same_key_false k a : same_key k a = false <-> lowv (s_key a) <> lowv k.
  Proof. rewrite <- same_key_iff. destruct (same_key k a); split; congruence. Qed.
  Lemma same_key_spec k a : reflect (lowv (s_key a) = lowv k) (same_key k a).
  Proof. apply iff_reflect. symmetry. apply same_key_iff. Qed.

  Definition lowkeys (l : list aset) := map (fun a => lowv (s_key a)) l.

  Lemma dict_get_some k l a : dict_get k l = Some a -> In a l /\ lowv (s_key a) = lowv k.
  Proof. intros H. apply find_some in H as (I & E). now rewrite same_key_iff in E. Qed.
  Lemma dict_get_none k l : dict_get k l = None -> forall a, In a l -> lowv (s_key a) <> lowv k.
  Proof. intros H a I. apply same_key_false. exact (find_none _ _ H a I). Qed.
  Lemma lowkeys_inj l a b : NoDup (lowkeys l) -> In a l -> In b l -> lowv (s_key a) = lowv (s_key b) -> a = b.
  Proof.
    induction l as [|c l IH]; cbn; [tauto|]. intros N [->|Ia] [->|Ib] E; auto; inversion N as [|? ? Ni N']; subst.
    - exfalso. apply Ni. rewrite E. apply (in_map (fun a => lowv (s_key a))). exact Ib.
    - exfalso. apply Ni. rewrite <- E. apply (in_map (fun a => lowv (s_key a))). exact Ia.
    - auto.
  Qed.
  Lemma dict_get_In k l a : NoDup (lowkeys l) -> In a l -> lowv (s_key a) = lowv k -> dict_get k l = Some a.
  Proof.
    intros N I E. destruct (dict_get k l) as [b|] eqn:G.
    - apply dict_get_some in G as (J & E2). f_equal. eapply lowkeys_inj; eauto. congruence.
    - exfalso. eapply dict_get_none; eauto.
  Qed.
  Lemma dict_get_ext k k' l : lowv k = lowv k' -> dict_get k l = dict_get k' l.
  Proof.
    intros E. unfold EntryModel.dict_get. induction l as [|a l IH]; [reflexivity|]. cbn [find].
    unfold EntryModel.same_key at 1 3. rewrite E. destruct (pyval_eqb _ _); auto.
  Qed.

  Lemma lowkeys_upd k f l : lowkeys (dict_upd k f l) = lowkeys l.
  Proof.
    unfold lowkeys. induction l as [|a l IH]; cbn; [reflexivity|].
    destruct (same_key k a); cbn; [reflexivity|now rewrite IH].
  Qed.
  Lemma In_dict_upd k f l b : NoDup (lowkeys l) -> In b (dict_upd k f l) <->
    (exists a, In a l /\ lowv (s_key a) = lowv k /\ b = mkSet (s_key a) (f (s_vals a))) \/
    (In b l /\ lowv (s_key b) <> lowv k).
  Proof.
    induction l as [|a l IH]; intros N; cbn [EntryModel.dict_upd].
    - cbn. split; [tauto|]. intros [(? & [] & _)|[[] _]].
    - cbn [lowkeys map] in N. inversion N as [|x y Ni N']; subst. destruct (same_key_spec k a) as [E|E].
      + cbn [In]. split.
        * intros [<-|I]; [left; exists a; auto|]. right. split; [auto|].
          intros E2. apply Ni. rewrite E, <- E2. apply (in_map (fun a => lowv (s_key a))). exact I.
        * intros [(c & [<-|I] & Ec & ->)|[[<-|I] Ne]]; auto; [|congruence].
          exfalso. apply Ni. rewrite E, <- Ec. apply (in_map (fun a => lowv (s_key a))). exact I.
      + cbn [In]. rewrite (IH N'). split.
        * intros [<-|[(c & I & Ec & ->)|[I Ne]]]; auto. left. exists c. auto.
        * intros [(c & [<-|I] & Ec & ->)|[[<-|I] Ne]]; auto; [congruence|]. right. left. exists c. auto.
  Qed.
  Lemma In_dict_set k vs l b : NoDup (lowkeys l) ->
    In b (dict_set k vs l) <-> b = mkSet k vs \/ (In b l /\ lowv (s_key b) <> lowv k).
  Proof.
    induction l as [|a l IH]; intros N; cbn [EntryModel.dict_set].
    - cbn. intuition congruence.
    - cbn [lowkeys map] in N. inversion N as [|x y Ni N']; subst. destruct (same_key_spec k a) as [E|E].
      + cbn [In]. split.
        * intros [<-|I]; auto. right. split; [auto|].
          intros E2. apply Ni. rewrite E, <- E2. apply (in_map (fun a => lowv (s_key a))). exact I.
        * intros [->|[[<-|I] Ne]]; auto. congruence.
      + cbn [In]. rewrite (IH N'). split; [intros [<-|[->|[I Ne]]]; auto|].
        intros [->|[[<-|I] Ne]]; auto.
  Qed.
  Lemma lowkeys_set k vs l : lowkeys (dict_set k vs l) =
    if existsb (same_key k) l then lowkeys l else lowkeys l ++ [lowv k].
  Proof.
    induction l as [|a l IH]; cbn; [reflexivity|]. destruct (same_key_spec k a) as [E|E]; cbn.
    - unfold lowkeys. now rewrite E.
    - unfold lowkeys in IH. rewrite IH. now destruct (existsb _ l).
  Qed.
  Lemma NoDup_dict_set k vs l : NoDup (lowkeys l) -> NoDup (lowkeys (dict_set k vs l)).
  Proof.
    intros N. rewrite lowkeys_set. destruct (existsb _ l) eqn:E; [exact N|]. apply NoDup_snoc; [exact N|].
    intros I. apply in_map_iff in I as (a & Ea & I).
    assert (existsb (same_key k) l = true) by (apply existsb_exists; exists a; split; [exact I|now apply same_key_iff]).
    congruence.
  Qed.
  Lemma In_dict_del k l b : In b (dict_del k l) <-> In b l /\ lowv (s_key b) <> lowv k.
  Proof. unfold EntryModel.dict_del. rewrite filter_In, negb_true_iff, same_key_false. tauto. Qed.
  Lemma NoDup_dict_del k l : NoDup (lowkeys l) -> NoDup (lowkeys (dict_del k l)).
  Proof.
    unfold EntryModel.dict_del. induction l as [|a l IH]; intros N; cbn; [constructor|].
    cbn [lowkeys map] in N. inversion N as [|x y Ni N']; subst. destruct (negb _); cbn; [|auto].
    constructor; [|auto]. intros I. apply Ni. apply in_map_iff in I as (c & Ec & I). apply filter_In in I as [I _].
    rewrite <- Ec. apply (in_map (fun a => lowv (s_key a))). exact I.
  Qed.

  (** Lookup in an entry of one key type. *)
  Lemma find_key_typed kt vt k e : typed kt k -> entry_ok kt vt e -> find_key lower k e = Ok (dict_get k (e_attrs e)).
  Proof.
    intros T (F & N). destruct (typed_forms kt k T) as (w & G & W). unfold find_key. rewrite G. cbn [bind fold_right].
    assert (dict_get w (e_attrs e) = None) as ->.
    { destruct (dict_get w (e_attrs e)) as [a|] eqn:D; [|reflexivity]. exfalso. apply dict_get_some in D as (I & E).
      rewrite Forall_forall in F. apply F in I as (I & _). apply typed_isstr in I.
      apply (f_equal isstr) in E. rewrite !isstr_lowv in E. destruct kt; cbn in W; congruence. }
    now destruct (dict_get k (e_attrs e)).
  Qed.
  Lemma getitem_typed kt vt k e : typed kt k -> entry_ok kt vt e ->
    getitem lower k e = match dict_get k (e_attrs e) with Some a => Ok a | None => Err EKey end.
  Proof. intros T O. unfold getitem. now rewrite (find_key_typed kt vt k e T O). Qed.

  Lemma has_get e k : has e k <-> exists a, dict_get k (e_attrs e) = Some a.
  Proof.
    split.
    - intros (a & I & E). destruct (dict_get k (e_attrs e)) eqn:G; [eauto|]. exfalso. eapply dict_get_none; eauto.
    - intros (a & G). apply dict_get_some in G as (I & E). exists a. auto.
  Qed.
  Lemma holds_get kt vt e k v a : entry_ok kt vt e -> dict_get k (e_attrs e) = Some a -> (holds e k v <-> In v (s_vals a)).
  Proof.
    intros (_ & N) G. apply dict_get_some in G as (I & E). split.
    - intros (b & J & Eb & V). assert (a = b) as -> by (eapply lowkeys_inj; eauto; congruence). exact V.
    - intros V. exists a. auto.
  Qed.
  Lemma holds_none e k v : dict_get k (e_attrs e) = None -> ~ holds e k v.
  Proof. intros G (b & J & Eb & V). eapply dict_get_none; eauto. Qed.

  Lemma entry_ok_get kt vt e k a : entry_ok kt vt e -> dict_get k (e_attrs e) = Some a ->
    typed kt (s_key a) /\ Forall (typed vt) (s_vals a) /\ NoDup (s_vals a).
  Proof. intros (F & _) G. apply dict_get_some in G as (I & _). rewrite Forall_forall in F. auto. Qed.

  (** The two ways of changing an entry. *)
  Lemma set_vals_ok kt vt e a vs k : entry_ok kt vt e -> dict_get k (e_attrs e) = Some a ->
    Forall (typed vt) vs -> NoDup vs ->
    entry_ok kt vt (set_vals lower a vs e) /\
    (forall k', has (set_vals lower a vs e) k' <-> has e k') /\
    (forall k' v, holds (set_vals lower a vs e) k' v <->
       (lowv k' = lowv k /\ In v vs) \/ (lowv k' <> lowv k /\ holds e k' v)).
  Proof.
    intros O G F D. pose proof (entry_ok_get _ _ _ _ _ O G) as (Ta & _). destruct O as (FA & N).
    apply dict_get_some in G as (I & E). unfold set_vals. cbn [e_attrs].
    assert (IN : forall b, In b (dict_upd (s_key a) (fun _ => vs) (e_attrs e)) <->
              b = mkSet (s_key a) vs \/ (In b (e_attrs e) /\ lowv (s_key b) <> lowv (s_key a))).
    { intros b. rewrite (In_dict_upd _ _ _ _ N). split; [|intros [->|H]; [left; exists a; auto|auto]].
      intros [(c & J & Ec & ->)|H]; [|auto]. left. assert (c = a) as -> by (eapply lowkeys_inj; eauto). reflexivity. }
    split; [split|split]; cbn [e_attrs].
    - apply Forall_forall. intros b J. apply IN in J as [->|(J & _)]; cbn; [auto|]. rewrite Forall_forall in FA. auto.
    - fold (lowkeys (dict_upd (s_key a) (fun _ => vs) (e_attrs e))). now rewrite lowkeys_upd.
    - intros k'. unfold EntrySpec.has. cbn [e_attrs]. split.
      + intros (b & J & Eb). apply IN in J as [->|(J & _)]; [exists a|exists b]; auto.
      + intros (b & J & Eb). destruct (pyval_eqb_spec (lowv (s_key b)) (lowv (s_key a))) as [Q|Q].
        * exists (mkSet (s_key a) vs). rewrite IN. cbn. split; [auto|congruence].
        * exists b. rewrite IN. auto.
    - intros k' v. unfold EntrySpec.holds. cbn [e_attrs]. split.
      + intros (b & J & Eb & V). apply IN in J as [->|(J & Ne)]; cbn in *; [left; split; [congruence|auto]|].
        right. split; [congruence|]. exists b. auto.
      + intros [(Ek & V)|(Ne & b & J & Eb & V)].
        * exists (mkSet (s_key a) vs). rewrite IN. cbn. repeat split; auto. congruence.
        * exists b. rewrite IN. repeat split; auto. right. split; [auto|congruence].
  Qed.
  Lemma setitem_ok kt vt e k vs : entry_ok kt vt e -> typed kt k -> Forall (typed vt) vs ->
    entry_ok kt vt (setitem lower k vs e) /\
    (forall k', has (setitem lower k vs e) k' <-> lowv k' = lowv k \/ has e k') /\
    (forall k' v, holds (setitem lower k vs e) k' v <->
       (lowv k' = lowv k /\ In v vs) \/ (lowv k' <> lowv k /\ holds e k' v)).
  Proof.
    intros (FA & N) T F. unfold setitem. cbn [e_attrs].
    pose proof (fun b => In_dict_set k (set_of vs) (e_attrs e) b N) as IN.
    split; [split|split]; cbn [e_attrs].
    - apply Forall_forall. intros b J. apply IN in J as [->|(J & _)]; cbn.
      + repeat split; auto; [|apply NoDup_set_of]. apply Forall_forall. intros x X. apply (proj1 (In_set_of _ _)) in X.
        rewrite Forall_forall in F. auto.
      + rewrite Forall_forall in FA. auto.
    - now apply NoDup_dict_set.
    - intros k'. unfold EntrySpec.has. cbn [e_attrs]. split.
      + intros (b & J & Eb). apply IN in J as [->|(J & Ne)]; [left; cbn in Eb; congruence|right; exists b; auto].
      + intros [E|(b & J & Eb)]; [exists (mkSet k (set_of vs)); rewrite IN; cbn; auto|].
        destruct (pyval_eqb_spec (lowv (s_key b)) (lowv k)) as [Q|Q].
        * exists (mkSet k (set_of vs)). rewrite IN. cbn. split; [auto|congruence].
        * exists b. rewrite IN. auto.
    - intros k' v. unfold EntrySpec.holds. cbn [e_attrs]. split.
      + intros (b & J & Eb & V). apply IN in J as [->|(J & Ne)]; cbn in *.
        * left. split; [congruence|]. now apply In_set_of.
        * right. split; [congruence|]. exists b. auto.
      + intros [(Ek & V)|(Ne & b & J & Eb & V)].
        * exists (mkSet k (set_of vs)). rewrite IN. cbn. repeat split; auto. now apply In_set_of.
        * exists b. rewrite IN. repeat split; auto. right. split; [auto|congruence].
  Qed.
  Lemma dict_del_ok kt vt e k : entry_ok kt vt e ->
    let e' := mkEntry (e_dn e) (dict_del k (e_attrs e)) in
    entry_ok kt vt e' /\ (forall k', has e' k' <-> lowv k' <> lowv k /\ has e k') /\
    (forall k' v, holds e' k' v <-> lowv k' <> lowv k /\ holds e k' v).
  Proof.
    intros (FA & N) e'. split; [split|split]; subst e'; cbn [e_attrs].
    - apply Forall_forall. intros b J. apply In_dict_del in J as (J & _). rewrite Forall_forall in FA. auto.
    - now apply NoDup_dict_del.
    - intros k'. unfold EntrySpec.has. cbn [e_attrs]. split.
      + intros (b & J & Eb). apply In_dict_del in J as (J & Ne). split; [congruence|exists b; auto].
      + intros (Ne & b & J & Eb). exists b. rewrite In_dict_del. repeat split; auto. congruence.
    - intros k' v. unfold EntrySpec.holds. cbn [e_attrs]. split.
      + intros (b & J & Eb & V). apply In_dict_del in J as (J & Ne). split; [congruence|exists b; auto].
      + intros (Ne & b & J & Eb & V). exists b. rewrite In_dict_del. repeat split; auto. congruence.
  Qed.

  (** *** Removing values one after the other *)
  Lemma remove_all_spec kt vt k vs : forall e, typed kt k -> entry_ok kt vt e -> Forall (typed vt) vs -> NoDup vs -> vs <> [] ->
    exists e' r, remove_all lower k vs e = (e', r) /\ entry_ok kt vt e' /\ e_dn e' = e_dn e /\
    ((r = Ok tt /\ has e k /\ Forall (holds e k) vs /\ (forall k', has e' k' <-> has e k') /\
      forall k' v, holds e' k' v <-> holds e k' v /\ ~ (lowv k' = lowv k /\ In v vs)) \/
     (r = Err EKey /\ ~ (has e k /\ Forall (holds e k) vs) /\ (forall k', has e' k' <-> has e k') /\
      exists done v rest, vs = done ++ v :: rest /\ Forall (holds e k) done /\ ~ holds e k v /\
      forall k' x, holds e' k' x <-> holds e k' x /\ ~ (lowv k' = lowv k /\ In x done))).
  Proof.
    induction vs as [|v vs IH]; intros e T O F D Ne; [congruence|]. clear Ne. cbn [remove_all].
    rewrite (getitem_typed kt vt k e T O).
    destruct (dict_get k (e_attrs e)) as [a|] eqn:G; cbn [bind].
    2:{ eexists. eexists. split; [reflexivity|]. split; [exact O|]. split; [reflexivity|]. right. split; [reflexivity|].
        assert (Nh : ~ has e k) by (rewrite has_get, G; intros (? & ?); discriminate).
        split; [tauto|]. split; [tauto|]. exists [], v, vs. split; [reflexivity|]. split; [constructor|].
        split; [apply holds_none; exact G|]. cbn. tauto. }
    pose proof (Forall_inv F) as Tv. pose proof (Forall_inv_tail F) as F'. inversion D as [|? ? Niv D']; subst.
    pose proof (entry_ok_get _ _ _ _ _ O G) as (Ta & Fa & Da).
    rewrite (aset_remove_typed vt v (s_vals a) Tv Fa). destruct (mem v (s_vals a)) eqn:M; cbn [bind].
    - apply mem_In in M.
      assert (Fd : Forall (typed vt) (set_del v (s_vals a))).
      { apply Forall_forall. intros x X. apply In_set_del in X as [X _]. rewrite Forall_forall in Fa. auto. }
      destruct (set_vals_ok kt vt e a (set_del v (s_vals a)) k O G Fd (NoDup_filter _ Da)) as (O' & Hh & Hv).
      set (e1 := set_vals lower a (set_del v (s_vals a)) e) in *.
      assert (Hv' : forall k' x, holds e1 k' x <-> holds e k' x /\ ~ (lowv k' = lowv k /\ x = v)).
      { intros k' x. rewrite Hv. destruct (pyval_eqb_spec (lowv k') (lowv k)) as [E|E].
        - rewrite In_set_del. assert (holds e k' x <-> In x (s_vals a)) as ->.
          { rewrite <- (holds_get kt vt e k' x a O); [tauto|]. now rewrite (dict_get_ext k' k _ E). }
          tauto.
        - tauto. }
      assert (HH : has e k) by (apply has_get; eauto).
      assert (HV : holds e k v) by (apply (holds_get kt vt e k v a O G); exact M).
      destruct vs as [|v2 vs2].
      + cbn [remove_all]. eexists. eexists. split; [reflexivity|]. split; [exact O'|]. split; [reflexivity|]. left.
        split; [reflexivity|]. split; [exact HH|]. split; [repeat constructor; exact HV|]. split; [exact Hh|].
        intros k' x. rewrite Hv'. cbn. intuition congruence.
      + destruct (IH e1 T O' F' D') as (e' & r & R & O2 & Dn & Z); [discriminate|].
        exists e', r. split; [exact R|]. split; [exact O2|]. split; [exact Dn|].
        set (vs := v2 :: vs2) in *.
        assert (FF : Forall (holds e1 k) vs <-> Forall (holds e k) vs).
        { rewrite !Forall_forall. split; intros H x X; [apply H, Hv' in X; tauto|]. apply Hv'. split; [auto|]. intros [_ ->]. auto. }
        destruct Z as [(-> & H1 & H2 & H3 & H4)|(-> & H1 & H3 & done & w & rest & E & H5 & H6 & H7)].
        * left. split; [reflexivity|]. split; [exact HH|]. split; [constructor; [exact HV|tauto]|].
          split; [intros; rewrite H3; apply Hh|]. intros k' x. rewrite H4, Hv'. cbn [In]. intuition congruence.
        * right. split; [reflexivity|]. split.
          { intros (_ & FA). apply H1. split; [apply Hh, HH|]. apply FF. exact (Forall_inv_tail FA). }
          split; [intros; rewrite H3; apply Hh|].
          exists (v :: done), w, rest. split; [now rewrite E|].
          assert (X : forall x, In x vs -> holds e k x <-> holds e1 k x).
          { intros x X. rewrite Hv'. split; [|tauto]. intros H. split; [exact H|]. intros [_ ->]. auto. }
          split; [|split].
          -- constructor; [exact HV|]. rewrite Forall_forall in *. intros x I. apply X; [rewrite E; apply in_or_app; auto|auto].
          -- rewrite X; [exact H6|]. rewrite E. apply in_or_app. right. now left.
          -- intros k' x. rewrite H7, Hv'. cbn [In]. intuition congruence.
    - apply mem_false in M. assert (Nv : ~ holds e k v) by (rewrite (holds_get kt vt e k v a O G); exact M).
      eexists. eexists. split; [reflexivity|]. split; [exact O|]. split; [reflexivity|]. right. split; [reflexivity|].
      split; [intros (_ & FA); exact (Nv (Forall_inv FA))|]. split; [tauto|].
      exists [], v, vs. split; [reflexivity|]. split; [constructor|]. split; [exact Nv|]. cbn. tauto.
  Qed.

  (** *** One modification *)
  Lemma upd_same A k x k' : lowv k' = lowv k -> upd lower A k x (lowv k') = x.
  Proof. intros E. unfold upd. rewrite E, pyval_eqb_refl. reflexivity. Qed.
  Lemma upd_other A k x k' : lowv k' <> lowv k -> upd lower A k x (lowv k') = A (lowv k').
  Proof. intros E. unfold upd. destruct (pyval_eqb_spec (lowv k) (lowv k')); congruence. Qed.

  Lemma represents_upd e e' A k (P : pyval -> Prop) : represents lower e A ->
    (forall k', lowv k' <> lowv k -> (has e' k' <-> has e k') /\ forall v, holds e' k' v <-> holds e k' v) ->
    (forall k', lowv k' = lowv k -> has e' k' /\ forall v, holds e' k' v <-> P v) ->
    represents lower e' (upd lower A k (Some P)).
  Proof.
    intros R O S k'. destruct (pyval_eqb_spec (lowv k') (lowv k)) as [E|E].
    - rewrite (upd_same _ _ _ _ E). destruct (S k' E) as (H & V). split; [exact H|]. intros v. now rewrite V.
    - rewrite (upd_other _ _ _ _ E). specialize (R k'). destruct (O k' E) as (H & V).
      destruct (A (lowv k')) as [Q|]; [|tauto]. destruct R as (R1 & R2). split; [tauto|]. intros v. now rewrite V.
  Qed.
  Lemma represents_del e e' A k : represents lower e A ->
    (forall k', lowv k' <> lowv k -> (has e' k' <-> has e k') /\ forall v, holds e' k' v <-> holds e k' v) ->
    (forall k', lowv k' = lowv k -> ~ has e' k') ->
    represents lower e' (upd lower A k None).
  Proof.
    intros R O S k'. destruct (pyval_eqb_spec (lowv k') (lowv k)) as [E|E].
    - rewrite (upd_same _ _ _ _ E). auto.
    - rewrite (upd_other _ _ _ _ E). specialize (R k'). destruct (O k' E) as (H & V).
      destruct (A (lowv k')) as [Q|]; [|tauto]. destruct R as (R1 & R2). split; [tauto|]. intros v. now rewrite V.
  Qed.

  Lemma rep_get e A k : represents lower e A ->
    match dict_get k (e_attrs e) with
    | Some a => exists P, A (lowv k) = Some P /\ forall v, P v <-> holds e k v
    | None => A (lowv k) = None
    end.
  Proof.
    intros R. specialize (R k). destruct (dict_get k (e_attrs e)) as [a|] eqn:G.
    - destruct (A (lowv k)) as [P|].
      + exists P. split; [reflexivity|]. apply R.
      + exfalso. apply R, has_get. eauto.
    - destruct (A (lowv k)) as [P|]; [|reflexivity]. exfalso. destruct R as (H & _). apply has_get in H as (a & H). congruence.
  Qed.

  Lemma Forall_ext {X} (P Q : X -> Prop) l : (forall x, P x <-> Q x) -> Forall P l <-> Forall Q l.
  Proof. intros H. rewrite !Forall_forall. split; intros F x I; apply H; auto. Qed.

  Lemma patch1_spec kt vt m e A : entry_ok kt vt e -> delta_ok kt vt m -> represents lower e A ->
    exists e' r, patch1 lower m e = (e', r) /\ entry_ok kt vt e' /\ e_dn e' = e_dn e /\
      ((r = Ok tt /\ exists A', modifies lower m A (Some A') /\ represents lower e' A') \/
       (r = Err EKey /\ modifies lower m A None)).
  Proof.
    intros O (T & F & D) R. destruct m as [kd k vs]. cbn [d_kind d_key d_vals] in *. unfold patch1. cbn [d_kind d_key d_vals].
    pose proof (rep_get e A k R) as RG. destruct kd.
    - rewrite (find_key_typed kt vt k e T O). destruct (dict_get k (e_attrs e)) as [a|] eqn:G.
      + pose proof (entry_ok_get _ _ _ _ _ O G) as (Ta & Fa & Da). destruct RG as (P & AP & HP).
        assert (FU : Forall (typed vt) (set_update (s_vals a) vs)).
        { apply Forall_forall. intros x X. apply In_set_update in X. rewrite Forall_forall in F, Fa. destruct X; auto. }
        destruct (set_vals_ok kt vt e a (set_update (s_vals a) vs) k O G FU (NoDup_set_update _ _ Da)) as (O' & Hh & Hv).
        eexists. eexists. split; [reflexivity|]. split; [exact O'|]. split; [reflexivity|]. left. split; [reflexivity|].
        eexists. split; [apply mod_add|]. apply (represents_upd e _ A k _ R).
        * intros k' Ne. split; [apply Hh|]. intros v. rewrite Hv. tauto.
        * intros k' E. split; [apply Hh, has_get; rewrite (dict_get_ext k' k _ E); eauto|]. intros v.
          rewrite Hv, In_set_update, <- (holds_get kt vt e k v a O G), <- HP. split.
          -- intros [(_ & [X|X])|X]; [right; exists P; auto|auto|tauto].
          -- intros [X|(Q & AQ & X)]; left; (split; [exact E|]); [auto|]. left. congruence.
      + destruct (setitem_ok kt vt e k vs O T F) as (O' & Hh & Hv).
        eexists. eexists. split; [reflexivity|]. split; [exact O'|]. split; [reflexivity|]. left. split; [reflexivity|].
        eexists. split; [apply mod_add|]. apply (represents_upd e _ A k _ R).
        * intros k' Ne. split; [rewrite Hh; tauto|]. intros v. rewrite Hv. tauto.
        * intros k' E. split; [apply Hh; auto|]. intros v. rewrite Hv. split.
          -- intros [(_ & X)|X]; tauto.
          -- intros [X|(Q & AQ & X)]; [auto|]. congruence.
    - destruct vs as [|v0 vs0].
      + unfold delitem. destruct (dict_get k (e_attrs e)) as [a|] eqn:G.
        * destruct RG as (P & AP & HP). destruct (dict_del_ok kt vt e k O) as (O' & Hh & Hv).
          eexists. eexists. split; [reflexivity|]. split; [exact O'|]. split; [reflexivity|]. left. split; [reflexivity|].
          eexists. split; [eapply mod_delete_attr; exact AP|]. apply (represents_del e _ A k R).
          -- intros k' Ne. split; [rewrite Hh; tauto|]. intros v. rewrite Hv. tauto.
          -- intros k' E. rewrite Hh. tauto.
        * eexists. eexists. split; [reflexivity|]. split; [exact O|]. split; [reflexivity|]. right. split; [reflexivity|].
          now apply mod_delete_no_attr.
      + set (vs := v0 :: vs0) in *.
        destruct (remove_all_spec kt vt k vs e T O F D ltac:(discriminate)) as (e' & r & RA & O' & Dn & Z).
        exists e', r. split; [exact RA|]. split; [exact O'|]. split; [exact Dn|].
        destruct Z as [(-> & H1 & H2 & H3 & H4)|(-> & H1 & _)].
        * left. split; [reflexivity|]. apply has_get in H1 as (a & G). rewrite G in RG. destruct RG as (P & AP & HP).
          eexists. split.
          { eapply mod_delete_values; [discriminate|exact AP|]. rewrite (Forall_ext P (holds e k)); auto. }
          apply (represents_upd e _ A k _ R).
          -- intros k' Ne. split; [apply H3|]. intros v. rewrite H4. tauto.
          -- intros k' E. split; [apply H3, has_get; rewrite (dict_get_ext k' k _ E); eauto|]. intros v. rewrite H4, HP.
             assert (holds e k' v <-> holds e k v) as -> by (unfold EntrySpec.holds; now rewrite E). tauto.
        * right. split; [reflexivity|]. destruct (dict_get k (e_attrs e)) as [a|] eqn:G; [|now apply mod_delete_no_attr].
          destruct RG as (P & AP & HP). eapply mod_delete_no_value; [exact AP|]. rewrite (Forall_ext P (holds e k)); [|exact HP].
          intros FA. apply H1. split; [apply has_get; eauto|exact FA].
    - destruct vs as [|v0 vs0].
      + unfold delitem. destruct (dict_get k (e_attrs e)) as [a|] eqn:G.
        * destruct (dict_del_ok kt vt e k O) as (O' & Hh & Hv).
          eexists. eexists. split; [reflexivity|]. split; [exact O'|]. split; [reflexivity|]. left. split; [reflexivity|].
          eexists. split; [apply mod_replace_none|]. apply (represents_del e _ A k R).
          -- intros k' Ne. split; [rewrite Hh; tauto|]. intros v. rewrite Hv. tauto.
          -- intros k' E. rewrite Hh. tauto.
        * eexists. eexists. split; [reflexivity|]. split; [exact O|]. split; [reflexivity|]. left. split; [reflexivity|].
          eexists. split; [apply mod_replace_none|]. apply (represents_del e _ A k R).
          -- tauto.
          -- intros k' E. rewrite has_get, (dict_get_ext k' k _ E), G. intros (? & ?). discriminate.
      + set (vs := v0 :: vs0) in *. destruct (setitem_ok kt vt e k vs O T F) as (O' & Hh & Hv).
        eexists. eexists. split; [reflexivity|]. split; [exact O'|]. split; [reflexivity|]. left. split; [reflexivity|].
        eexists. split; [apply mod_replace; discriminate|]. apply (represents_upd e _ A k _ R).
        * intros k' Ne. split; [rewrite Hh; tauto|]. intros v. rewrite Hv. tauto.
        * intros k' E. split; [apply Hh; auto|]. intros v. rewrite Hv. tauto.
  Qed.

  Lemma patch_all_spec kt vt ms : forall e A, entry_ok kt vt e -> Forall (delta_ok kt vt) ms -> represents lower e A ->
    exists e' r, patch_all lower ms e = (e', r) /\ entry_ok kt vt e' /\ e_dn e' = e_dn e /\
      ((r = Ok tt /\ exists A', modifies_all lower ms A (Some A') /\ represents lower e' A') \/
       (r = Err EKey /\ modifies_all lower ms A None)).
  Proof.
    induction ms as [|m ms IH]; intros e A O F R; cbn [patch_all].
    - exists e, (Ok tt). split; [reflexivity|]. split; [exact O|]. split; [reflexivity|].
      left. split; [reflexivity|]. exists A. split; [constructor|exact R].
    - destruct (patch1_spec kt vt m e A O (Forall_inv F) R) as (e1 & r & P & O1 & D1 & Z). rewrite P.
      destruct Z as [(-> & A1 & M & R1)|(-> & M)].
      + destruct (IH e1 A1 O1 (Forall_inv_tail F) R1) as (e' & r & P' & O' & D' & Z'). exists e', r.
        split; [exact P'|]. split; [exact O'|]. split; [congruence|].
        destruct Z' as [(-> & A' & M' & R')|(-> & M')]; [left|right]; (split; [reflexivity|]).
        * exists A'. split; [econstructor 3; eauto|exact R'].
        * econstructor 3; eauto.
      + exists e1, (Err EKey). split; [reflexivity|]. split; [exact O1|]. split; [exact D1|]. right.
        split; [reflexivity|]. now constructor.
  Qed.

  (** Every entry represents some map. *)
  Lemma represents_some e : exists A, represents lower e A.
  Proof.
    exists (fun lk => match find (fun a => pyval_eqb lk (lowv (s_key a))) (e_attrs e) with
                      | Some _ => Some (fun v => exists a, In a (e_attrs e) /\ lowv (s_key a) = lk /\ In v (s_vals a))
                      | None => None end).
    intros k. change (find _ (e_attrs e)) with (dict_get k (e_attrs e)).
    destruct (dict_get k (e_attrs e)) as [a|] eqn:G.
    - split; [apply has_get; eauto|]. intros v. unfold EntrySpec.holds. tauto.
    - rewrite has_get, G. intros (? & ?). discriminate.
  Qed.

  (** *** Where a failed modify stops (C25) *)
  Lemma patch_all_stop kt vt ms : forall e e' x, entry_ok kt vt e -> Forall (delta_ok kt vt) ms ->
    patch_all lower ms e = (e', Err x) ->
    exists pre m post e1 done, ms = pre ++ m :: post /\ patch_all lower pre e = (e1, Ok tt) /\
      d_kind m = MDelete /\ (exists v rest, d_vals m = done ++ v :: rest \/ d_vals m = [] /\ done = []) /\
      (forall k, has e' k <-> has e1 k) /\
      (forall k v, holds e' k v <-> holds e1 k v /\ ~ (lowv k = lowv (d_key m) /\ In v done)).
  Proof.
    induction ms as [|m ms IH]; intros e e' x O F P; cbn [patch_all] in P; [discriminate|].
    destruct (represents_some e) as (A & R).
    destruct (patch1_spec kt vt m e A O (Forall_inv F) R) as (e1 & r & P1 & O1 & D1 & Z).
    rewrite P1 in P. destruct Z as [(-> & _)|(-> & _)].
    - destruct (IH e1 e' x O1 (Forall_inv_tail F) P) as (pre & m' & post & e2 & done & -> & PP & K & V & H1 & H2).
      exists (m :: pre), m', post, e2, done. split; [reflexivity|]. split; [cbn [patch_all]; now rewrite P1|]. auto.
    - injection P as -> _. destruct (Forall_inv F) as (T & FT & D). unfold patch1 in P1.
      exists [], m, ms, e. destruct (d_kind m) eqn:K.
      + exfalso. rewrite (find_key_typed kt vt _ e T O) in P1. destruct (dict_get _ _); discriminate.
      + destruct (d_vals m) as [|v0 vs0] eqn:V.
        * destruct (delitem _ _ _); [discriminate|]. injection P1 as <- _. exists [].
          split; [reflexivity|]. split; [reflexivity|]. split; [reflexivity|]. split; [exists (PStr []), []; auto|].
          split; [tauto|]. cbn. tauto.
        * destruct (remove_all_spec kt vt (d_key m) (v0 :: vs0) e T O FT D ltac:(discriminate)) as (e2 & r & RA & _ & _ & Z).
          rewrite RA in P1. injection P1 as -> ->. destruct Z as [(X & _)|(_ & _ & H3 & done & v & rest & E & _ & _ & H)]; [discriminate|].
          exists done. split; [reflexivity|]. split; [reflexivity|]. split; [reflexivity|]. split; [exists v, rest; auto|]. auto.
      + exfalso. destruct (d_vals m); [|discriminate]. unfold delitem in P1. destruct (dict_get _ _); discriminate.
  Qed.

  (** *** Attributes not named *)
  Lemma modifies_other m A A' k : modifies lower m A (Some A') -> lowv (d_key m) <> k -> A' k = A k.
  Proof.
    intros M N. inversion M; subst; cbn [d_key] in N; unfold upd; destruct (pyval_eqb_spec (lowv k0) k); congruence.
  Qed.
  Lemma modifies_all_other ms A A' k : modifies_all lower ms A (Some A') -> Forall (fun m => lowv (d_key m) <> k) ms -> A' k = A k.
  Proof.
    intros M F. remember (Some A') as o eqn:E. induction M as [A|m ms A M|m ms A A1 o M MM IH]; [congruence|discriminate|].
    rewrite (IH E (Forall_inv_tail F)). eapply modifies_other; [exact M|]. exact (Forall_inv F).
  Qed.
  Lemma represents_same e e' A A' k v : represents lower e A -> represents lower e' A' -> A' (lowv k) = A (lowv k) ->
    (has e' k <-> has e k) /\ (holds e' k v <-> holds e k v).
  Proof.
    intros R R' E. specialize (R k). specialize (R' k). rewrite E in R'.
    assert (NN : forall e, ~ has e k -> ~ holds e k v) by (intros x N (a & I & Ea & _); apply N; exists a; auto).
    destruct (A (lowv k)) as [P|].
    - destruct R as (H1 & H2), R' as (H3 & H4). specialize (H2 v). specialize (H4 v). tauto.
    - pose proof (NN e R). pose proof (NN e' R'). tauto.
  Qed.
  Lemma patch_all_ok_other kt vt ms e e' k v : entry_ok kt vt e -> Forall (delta_ok kt vt) ms ->
    patch_all lower ms e = (e', Ok tt) -> Forall (fun m => lowv (d_key m) <> lowv k) ms ->
    (has e' k <-> has e k) /\ (holds e' k v <-> holds e k v).
  Proof.
    intros O F P N. destruct (represents_some e) as (A & R).
    destruct (patch_all_spec kt vt ms e A O F R) as (e2 & r & P2 & _ & _ & Z). rewrite P in P2. injection P2 as <- <-.
    destruct Z as [(_ & A' & M & R')|(X & _)]; [|discriminate].
    eapply represents_same; [exact R|exact R'|]. eapply modifies_all_other; eauto.
  Qed.
  Lemma patch_all_other kt vt ms e e' r k v : entry_ok kt vt e -> Forall (delta_ok kt vt) ms ->
    patch_all lower ms e = (e', r) -> Forall (fun m => lowv (d_key m) <> lowv k) ms ->
    (has e' k <-> has e k) /\ (holds e' k v <-> holds e k v).
  Proof.
    intros O F P N. destruct r as [[]|x]; [eapply patch_all_ok_other; eauto|].
    destruct (patch_all_stop kt vt ms e e' x O F P) as (pre & m & post & e1 & done & -> & PP & _ & _ & H1 & H2).
    apply Forall_app in F as (F1 & _). apply Forall_app in N as (N1 & N2). apply Forall_inv in N2.
    destruct (patch_all_ok_other kt vt pre e e1 k v O F1 PP N1) as (A1 & A2). rewrite H1, H2, A1, A2.
    split; [tauto|]. assert (lowv k <> lowv (d_key m)) by congruence. tauto.
  Qed.
End Entries.

(** A decision of [entry_ok], for concrete entries. *)
Definition typedb (t : bool) (v : pyval) : bool :=
  match t, v with
  | true, PStr s => match utf8_encode s with Ok _ => true | _ => false end
  | false, PBytes b => match utf8_decode b with Ok _ => true | _ => false end
  | _, _ => false
  end.
Fixpoint nodupb (l : list pyval) : bool := match l with [] => true | v :: r => negb (mem v r) && nodupb r end.
Definition entry_okb lower kt vt (e : entry) : bool :=
  forallb (fun a => typedb kt (s_key a) && forallb (typedb vt) (s_vals a) && nodupb (s_vals a)) (e_attrs e) &&
  nodupb (map (fun a => lowv lower (s_key a)) (e_attrs e)).
Lemma typedb_typed t v : typedb t v = true -> typed t v.
Proof.
  destruct t, v; cbn; try discriminate; [destruct (utf8_encode s) eqn:E|destruct (utf8_decode b) eqn:E]; try discriminate; eauto.
Qed.
Lemma nodupb_NoDup l : nodupb l = true -> NoDup l.
Proof.
  induction l as [|v l IH]; intros H; [constructor|]. cbn [nodupb] in H. apply andb_prop in H as (H1 & H2). constructor; [|auto].
  apply mem_false. now destruct (mem v l).
Qed.
Lemma entry_okb_ok lower kt vt e : entry_okb lower kt vt e = true -> entry_ok lower kt vt e.
Proof.
  intros H. apply andb_prop in H as (H1 & H2). split; [|now apply nodupb_NoDup].
  apply Forall_forall. intros a I. rewrite forallb_forall in H1. specialize (H1 a I). apply andb_prop in H1 as (H1 & H3).
  apply andb_prop in H1 as (H0 & H1). split; [now apply typedb_typed|]. split; [|now apply nodupb_NoDup].
  apply Forall_forall. intros v J. rewrite forallb_forall in H1. apply typedb_typed. auto.
Qed.
