(** Comparing entries and operations (C82). *)
From Coq Require Import Permutation.
From Verif Require Import BaseFacts Utf8Model Utf8Proofs DnModel DnProofs EntryModel EntrySpec EntryProofs SortFacts DiffProofs UtilModel LdifModel LdifRound
  OpEqModel OpEqSpec.

(** ** Sorting values *)
Lemma str_leb_trans a b c : str_leb a b = true -> str_leb b c = true -> str_leb a c = true.
Proof.
  revert b c. induction a as [|x a IH]; intros [|y b] [|z c]; cbn; try congruence.
  destruct (Z.ltb_spec x y), (Z.ltb_spec y x), (Z.ltb_spec y z), (Z.ltb_spec z y), (Z.ltb_spec x z), (Z.ltb_spec z x); try congruence; try lia; eauto.
Qed.
Definition tot_leb (a b : pyval) : bool :=
  match a, b with
  | PStr s, PStr t => str_leb s t
  | PBytes s, PBytes t => bytes_leb s t
  | PStr _, PBytes _ => true
  | PBytes _, PStr _ => false
  end.
Lemma tot_total a b : tot_leb a b = true \/ tot_leb b a = true.
Proof. destruct a, b; cbn; auto; [apply str_leb_total|apply bytes_leb_total]. Qed.
Lemma tot_trans a b c : tot_leb a b = true -> tot_leb b c = true -> tot_leb a c = true.
Proof. destruct a, b, c; cbn; try congruence; [apply str_leb_trans|apply bytes_leb_trans]. Qed.
Lemma tot_anti a b : tot_leb a b = true -> tot_leb b a = true -> a = b.
Proof. destruct a, b; cbn; try congruence; intros; f_equal; [now apply str_leb_antisym|now apply bytes_leb_antisym]. Qed.
Lemma insert_ext {A} (f g : A -> A -> bool) x l : (forall y, In y l -> f x y = g x y) -> insert_by f x l = insert_by g x l.
Proof.
  induction l as [|y l IH]; intros H; [reflexivity|]. cbn [insert_by]. rewrite (H y (or_introl eq_refl)). destruct (g x y); [reflexivity|].
  f_equal. apply IH. intros z I. apply H. now right.
Qed.
Lemma sort_ext {A} (f g : A -> A -> bool) l : (forall x y, In x l -> In y l -> f x y = g x y) -> sort_by f l = sort_by g l.
Proof.
  induction l as [|x l IH]; intros H; [reflexivity|]. unfold sort_by in *. cbn [fold_right]. rewrite IH; [|intros; apply H; now right].
  apply insert_ext. intros y I. apply H; [now left|right]. apply (Permutation_in _ (Permutation_sym (sort_perm g l)) I).
Qed.
Lemma forallb_perm {A} (p : A -> bool) l m : Permutation l m -> forallb p l = forallb p m.
Proof. induction 1; cbn; try congruence. now destruct (p x), (p y). Qed.
Lemma sort_values_perm l m : Permutation l m -> sort_values l = sort_values m.
Proof.
  intros P. unfold sort_values, all_str, all_bytes. rewrite !(forallb_perm _ _ _ P).
  destruct (forallb _ m || forallb _ m) eqn:E; [|reflexivity]. f_equal.
  assert (H : forall l', Permutation l' m -> sort_by pyval_leb l' = sort_by tot_leb l').
  { intros l' P'. apply sort_ext. intros x y I J. apply orb_true_iff in E. rewrite !forallb_forall in E.
    apply (Permutation_in _ P') in I, J. destruct E as [E|E]; pose proof (E x I); pose proof (E y J); destruct x, y; try discriminate; reflexivity. }
  rewrite (H l P), (H m (Permutation_refl m)). apply sort_unique; [apply tot_total|apply tot_trans|intros x y _ _; apply tot_anti|exact P].
Qed.
Lemma same_perm (l m : list pyval) : NoDup l -> NoDup m -> set_eqb l m = true -> Permutation l m.
Proof. intros N N' E. apply NoDup_Permutation; auto. now apply set_eqb_iff. Qed.

(** Values sorted by octets are written alike, also where text and bytes with the same octets change places. *)
Lemma to_bytes_err v x : to_bytes v = Err x -> x = EUnicode.
Proof.
  destruct v as [s|b]; cbn [to_bytes]; [|discriminate]. revert x. induction s as [|c s IH]; intros x; cbn [utf8_encode]; [discriminate|].
  unfold utf8_char at 1. repeat match goal with |- context [if ?e then _ else _] => destruct e end; cbn [bind]; try congruence;
    destruct (utf8_encode s); cbn [bind]; try congruence; intros H; apply IH; congruence.
Qed.
Lemma bind_err {A C} (r : res A) (f : A -> res C) x : bind r f = Err x -> r = Err x \/ exists a, r = Ok a /\ f a = Err x.
Proof. destruct r; cbn [bind]; intros H; [right; eauto|left; congruence]. Qed.
Lemma mapR_err {A C} (f : A -> res C) l x : mapR f l = Err x -> exists a, In a l /\ f a = Err x.
Proof.
  induction l as [|a l IH]; cbn [mapR]; [discriminate|]. intros H. apply bind_err in H as [H|(b & _ & H)]; [exists a; split; [now left|exact H]|].
  apply bind_err in H as [H|(t & _ & H)]; [|discriminate]. destruct (IH H) as (a' & I & E). exists a'. split; [now right|exact E].
Qed.
Lemma mapR_bytes_perm l m : Permutation l m ->
  (exists bs cs, mapR to_bytes l = Ok bs /\ mapR to_bytes m = Ok cs /\ Permutation bs cs) \/
  (mapR to_bytes l = Err EUnicode /\ mapR to_bytes m = Err EUnicode).
Proof.
  intros P. destruct (mapR to_bytes l) as [bs|x] eqn:E.
  - left. apply mapR_F2 in E. assert (F : Forall2 (fun b v => to_bytes v = Ok b) bs l) by (clear - E; induction E; constructor; auto).
    destruct (Permutation_Forall2 P E) as (cs & Q & G). exists bs, cs. split; [reflexivity|]. split; [now apply mapR_F2|exact Q].
  - right. pose proof (mapR_err _ _ _ E) as (a & I & A). pose proof (to_bytes_err _ _ A) as ->. split; [reflexivity|].
    destruct (mapR to_bytes m) as [cs|y] eqn:Em.
    + exfalso. apply mapR_F2 in Em. apply (Permutation_in _ P) in I. destruct (F2_In_l _ _ _ _ Em I) as (b & _ & B). congruence.
    + apply mapR_err in Em as (b & _ & B). apply to_bytes_err in B as ->. reflexivity.
Qed.

Lemma sort_to_bytes_bytes l :
  match mapR to_bytes l with
  | Ok bs => exists l', sort_to_bytes l = Ok l' /\ Permutation l l' /\ mapR to_bytes l' = Ok (sort_by bytes_leb bs)
  | Err x => sort_to_bytes l = Err x
  end.
Proof.
  unfold sort_to_bytes.
  assert (E : mapR (fun v => do b <- to_bytes v; Ok (b, v)) l = do bs <- mapR to_bytes l; Ok (combine bs l)).
  { induction l as [|v l IH]; [reflexivity|]. cbn [mapR]. destruct (to_bytes v); cbn [bind]; [|reflexivity]. rewrite IH. destruct (mapR to_bytes l); reflexivity. }
  rewrite E. destruct (mapR to_bytes l) as [bs|x] eqn:M; [|reflexivity]. cbn [bind]. eexists. split; [reflexivity|].
  assert (Fst : map fst (combine bs l) = bs /\ map snd (combine bs l) = l /\ Forall (fun p => to_bytes (snd p) = Ok (fst p)) (combine bs l)).
  { clear E. apply mapR_F2 in M. induction M as [|v b l bs V M (A & B & C)]; [repeat split; constructor|]. cbn [combine map fst snd]. rewrite A, B. repeat split. constructor; [exact V|exact C]. }
  destruct Fst as (A & B & C). set (c := combine bs l) in *. clearbody c. clear M E. split.
  - rewrite <- B at 1. apply Permutation_map, sort_perm.
  - assert (S : map fst (sort_by (fun x y => bytes_leb (fst x) (fst y)) c) = sort_by bytes_leb bs).
    { rewrite <- A. clear. induction c as [|p c IH]; [reflexivity|]. unfold sort_by in *. cbn [map fold_right]. rewrite <- IH.
      generalize (fold_right (insert_by (fun x y : bytes * pyval => bytes_leb (fst x) (fst y))) [] c). intros s.
      induction s as [|q s IHs]; [reflexivity|]. cbn [map insert_by]. destruct (bytes_leb (fst p) (fst q)); cbn [map]; [reflexivity|]. now rewrite IHs. }
    rewrite <- S. apply mapR_F2. assert (D : Forall (fun p => to_bytes (snd p) = Ok (fst p)) (sort_by (fun x y => bytes_leb (fst x) (fst y)) c)).
    { rewrite Forall_forall in *. intros p I. apply C. apply (Permutation_in _ (Permutation_sym (sort_perm _ c)) I). }
    clear S. induction D as [|q r Q D IHD]; constructor; auto.
Qed.
Lemma sort_bytes_unique bs cs : Permutation bs cs -> sort_by bytes_leb bs = sort_by bytes_leb cs.
Proof. intros P. apply sort_unique; [apply bytes_leb_total|apply bytes_leb_trans|intros x y _ _; apply bytes_leb_antisym|exact P]. Qed.

(** Items that are written alike. *)
Definition alike_item (x y : pyval * list pyval) : Prop :=
  x = y \/ (fst x = fst y /\ exists bs, mapR to_bytes (snd x) = Ok bs /\ mapR to_bytes (snd y) = Ok bs).
Lemma values_ldif_bytes k vs bs : mapR to_bytes vs = Ok bs ->
  mapR (attributeAsLDIF k) vs = mapR (fun b => do a <- to_bytes k; Ok (attr_line a b)) bs.
Proof.
  intros E. apply mapR_F2 in E. induction E as [|v b vs bs V E IH]; [reflexivity|]. cbn [mapR]. rewrite IH. unfold attributeAsLDIF at 1. rewrite V. reflexivity.
Qed.
Lemma attrs_ldif_alike l m : Forall2 alike_item l m -> attrs_ldif l = attrs_ldif m.
Proof.
  intros F. unfold attrs_ldif. f_equal. induction F as [|x y l m [->|(K & bs & X & Y)] F IH]; [reflexivity| |]; cbn [mapR]; rewrite IH; [reflexivity|].
  unfold values_ldif at 1 3. rewrite (values_ldif_bytes _ _ _ X), (values_ldif_bytes _ _ _ Y), K. reflexivity.
Qed.

Lemma sort_map {A C} (f : C -> C -> bool) (g : A -> C) l : sort_by f (map g l) = map g (sort_by (fun x y => f (g x) (g y)) l).
Proof.
  induction l as [|a l IH]; [reflexivity|]. unfold sort_by in *. cbn [map fold_right]. rewrite IH.
  generalize (fold_right (insert_by (fun x y => f (g x) (g y))) [] l). intros s.
  induction s as [|b s IHs]; [reflexivity|]. cbn [map insert_by]. destruct (f (g a) (g b)); [reflexivity|]. cbn [map]. now rewrite IHs.
Qed.

Section Entries.
  Variable lower : str -> str.
  Variable oc : bool.

  Lemma eq_loop_true ks a b : eq_loop lower ks a b = Ok true ->
    Forall (fun k => exists x y, getitem lower k a = Ok x /\ getitem lower k b = Ok y /\ aset_eqb x y = true) ks.
  Proof.
    induction ks as [|k ks IH]; cbn [eq_loop]; [constructor|]. rewrite bind_ok. intros (x & X & H). apply bind_ok in H as (y & Y & H).
    destruct (aset_eqb x y) eqn:E; [|discriminate]. constructor; [eauto|auto].
  Qed.
  Lemma eq_true_inv a b : entry_eq lower a b = Ok true -> exists my, dn_eqb lower (e_dn a) (e_dn b) = true /\
    sort_to_bytes (keys_of a) = Ok my /\ sort_to_bytes (keys_of b) = Ok my /\
    Forall (fun k => exists x y, getitem lower k a = Ok x /\ getitem lower k b = Ok y /\ aset_eqb x y = true) my.
  Proof.
    unfold entry_eq. destruct (dn_eqb lower (e_dn a) (e_dn b)); [|discriminate]. cbn [negb]. rewrite bind_ok. intros (my & M & H).
    apply bind_ok in H as (its & I & H). destruct (list_eqb pyval_eqb my its) eqn:E; [|discriminate]. apply list_eqb_pyval in E. subst its.
    exists my. apply eq_loop_true in H. auto.
  Qed.

  Definition vals_of (e : entry) (k : pyval) : list pyval := match getitem lower k e with Ok a => s_vals a | Err _ => [] end.
  Definition sorted_item (kv : pyval * list pyval) : res (pyval * list pyval) := do vs <- sort_values (snd kv); Ok (fst kv, vs).
  Lemma other_items_eq e my : sort_to_bytes (keys_of e) = Ok my -> Forall (fun k => exists x, getitem lower k e = Ok x) my ->
    other_items lower e = mapR sorted_item (List.filter (fun kv => negb (is_oc lower (fst kv))) (map (fun k => (k, vals_of e k)) my)).
  Proof.
    intros M G. unfold other_items. fold sorted_item. pose proof (sort_to_bytes_bytes (keys_of e)) as S.
    destruct (mapR to_bytes (keys_of e)) as [bs|] eqn:Bs; [|congruence]. destruct S as (l' & L & P & _). rewrite M in L. apply Ok_inj in L. subst l'.
    assert (I : mapR (fun k => do a <- getitem lower k e; Ok (k, s_vals a)) (keys_of e) = Ok (map (fun k => (k, vals_of e k)) (keys_of e))).
    { apply mapR_F2. assert (Gk : Forall (fun k => exists x, getitem lower k e = Ok x) (keys_of e)).
      { rewrite Forall_forall in *. intros k Ik. apply G, (Permutation_in _ P Ik). }
      clear - Gk. induction Gk as [|k ks (x & X) Gk IH]; cbn [map]; constructor; [|exact IH]. unfold vals_of. rewrite X. reflexivity. }
    rewrite I. cbn [bind]. clear I.
    unfold sort_to_bytes in M. apply bind_ok in M as (kp & K & M). apply Ok_inj in M.
    assert (K' : mapR (fun kv : pyval * list pyval => do b <- to_bytes (fst kv); Ok (b, kv)) (map (fun k => (k, vals_of e k)) (keys_of e)) =
      Ok (map (fun p : bytes * pyval => (fst p, (snd p, vals_of e (snd p)))) kp)).
    { apply mapR_F2. apply mapR_F2 in K. clear - K. induction K as [|k p ks kp E K IH]; cbn [map]; constructor; [|exact IH]. cbn [fst].
      apply bind_ok in E as (b & -> & E). apply Ok_inj in E. subst p. reflexivity. }
    rewrite K'. cbn [bind]. f_equal. f_equal. rewrite sort_map, map_map. cbn [snd fst]. rewrite <- M, map_map. reflexivity.
  Qed.

  Lemma find_key_own e a : NoDup (map (fun a => lowv lower (s_key a)) (e_attrs e)) -> In a (e_attrs e) ->
    forall x, getitem lower (s_key a) e = Ok x -> x = a.
  Proof.
    intros N I x. unfold getitem, find_key. rewrite bind_ok. intros (o & O & H). apply bind_ok in O as (fs & F & O). apply Ok_inj in O. subst o.
    assert (D : dict_get lower (s_key a) (e_attrs e) = Some a) by (apply dict_get_In; auto).
    destruct (s_key a) as [s|s]; cbn [get_strings] in F; apply bind_ok in F as (z & _ & F); apply Ok_inj in F; subst fs; cbn [fold_right] in H;
      rewrite D in H; congruence.
  Qed.
  Lemma getitem_in e k a : getitem lower k e = Ok a -> In a (e_attrs e).
  Proof.
    unfold getitem, find_key. rewrite bind_ok. intros (o & O & H). apply bind_ok in O as (fs & _ & O). apply Ok_inj in O. subst o.
    induction fs as [|f fs IH]; cbn [fold_right] in H; [discriminate|]. destruct (dict_get lower f (e_attrs e)) as [b|] eqn:D; [|auto].
    apply dict_get_some in D as (I & _). congruence.
  Qed.

  (** Equal entries have the same attributes, by exact key. *)
  Lemma equal_get a b k : well_formed lower a -> well_formed lower b -> entry_eq lower a b = Ok true ->
    match dict_get lower k (e_attrs a), dict_get lower k (e_attrs b) with
    | Some x, Some y => Permutation (s_vals x) (s_vals y)
    | None, None => True
    | _, _ => False
    end.
  Proof.
    intros (Na & Va) (Nb & Vb) E. apply eq_true_inv in E as (my & _ & Sa & Sb & F).
    assert (Ka : forall z, In z (keys_of a) <-> In z my).
    { intros z. destruct (sort_to_bytes_ok (keys_of a)) as (m & M & P); [|]. 2:{ rewrite Sa in M. apply Ok_inj in M. subst m. split; [apply (Permutation_in _ P)|apply (Permutation_in _ (Permutation_sym P))]. }
      intros v I. pose proof (sort_to_bytes_bytes (keys_of a)) as S. destruct (mapR to_bytes (keys_of a)) eqn:Q; [|congruence].
      apply mapR_F2 in Q. destruct (F2_In_l _ _ _ _ Q I) as (y & _ & Y). eauto. }
    assert (Kb : forall z, In z (keys_of b) <-> In z my).
    { intros z. destruct (sort_to_bytes_ok (keys_of b)) as (m & M & P); [|]. 2:{ rewrite Sb in M. apply Ok_inj in M. subst m. split; [apply (Permutation_in _ P)|apply (Permutation_in _ (Permutation_sym P))]. }
      intros v I. pose proof (sort_to_bytes_bytes (keys_of b)) as S. destruct (mapR to_bytes (keys_of b)) eqn:Q; [|congruence].
      apply mapR_F2 in Q. destruct (F2_In_l _ _ _ _ Q I) as (y & _ & Y). eauto. }
    assert (One : forall e f k x, NoDup (map (fun a => lowv lower (s_key a)) (e_attrs e)) -> NoDup (map (fun a => lowv lower (s_key a)) (e_attrs f)) ->
      (forall z, In z (keys_of e) <-> In z my) -> (forall z, In z (keys_of f) <-> In z my) ->
      dict_get lower k (e_attrs e) = Some x -> exists y, dict_get lower k (e_attrs f) = Some y /\ s_key y = s_key x).
    { intros e f k' x Ne Nf Ke Kf D. apply dict_get_some in D as (I & L). assert (J : In (s_key x) (keys_of f)) by (apply Kf, Ke; unfold keys_of; apply in_map, I).
      unfold keys_of in J. apply in_map_iff in J as (y & Ey & J). exists y. split; [|exact Ey]. apply dict_get_In; auto. congruence. }
    destruct (dict_get lower k (e_attrs a)) as [x|] eqn:Dx.
    - destruct (One a b k x Na Nb Ka Kb Dx) as (y & Dy & Ey). rewrite Dy.
      apply dict_get_some in Dx as (Ix & _), Dy as (Iy & _).
      rewrite Forall_forall in F. destruct (F (s_key x)) as (x' & y' & X & Y & Q); [apply Ka; unfold keys_of; apply in_map, Ix|].
      apply (find_key_own a x Na Ix) in X. subst x'. rewrite <- Ey in Y. apply (find_key_own b y Nb Iy) in Y. subst y'.
      unfold aset_eqb in Q. apply andb_true_iff in Q as (_ & Q). rewrite Forall_forall in Va, Vb. apply same_perm; auto.
    - destruct (dict_get lower k (e_attrs b)) as [y|] eqn:Dy; [|exact I].
      destruct (One b a k y Nb Na Kb Ka Dy) as (x & Dx' & _). congruence.
  Qed.

  Lemma equal_toWire a b : well_formed lower a -> well_formed lower b -> e_dn a = e_dn b -> entry_eq lower a b = Ok true ->
    entry_toWire lower oc a = entry_toWire lower oc b.
  Proof.
    intros Wa Wb D E. pose proof (fun k => equal_get a b k Wa Wb E) as G. apply eq_true_inv in E as (my & _ & Sa & Sb & F).
    unfold entry_toWire, entry_items. rewrite <- D.
    assert (O : other_items lower a = other_items lower b).
    { rewrite (other_items_eq a my Sa), (other_items_eq b my Sb).
      2, 3: rewrite Forall_forall in *; intros k I; destruct (F k I) as (x & y & X & Y & _); eauto.
      clear Sa Sb G. induction F as [|k my (x & y & X & Y & Q) F IH]; [reflexivity|]. cbn [map List.filter fst].
      destruct (negb (is_oc lower k)); [|exact IH]. cbn [mapR]. rewrite IH. unfold sorted_item at 1 3. cbn [fst snd]. unfold vals_of at 1 3. rewrite X, Y.
      rewrite (sort_values_perm (s_vals x) (s_vals y)); [reflexivity|]. unfold aset_eqb in Q. apply andb_true_iff in Q as (_ & Q).
      destruct Wa as (_ & Va), Wb as (_ & Vb). rewrite Forall_forall in Va, Vb. apply same_perm; auto; [apply Va|apply Vb]; eapply getitem_in; eauto. }
    rewrite O. assert (C : (exists l m, oc_items lower oc a = Ok l /\ oc_items lower oc b = Ok m /\ Forall2 alike_item l m) \/
      (oc_items lower oc a = Err EUnicode /\ oc_items lower oc b = Err EUnicode)).
    { unfold oc_items. generalize (oc_keys oc). intros ks. induction ks as [|k ks IH]; cbn [mapR]; [left; exists [], []; auto|].
      assert (P : Permutation (match dict_get lower k (e_attrs a) with Some x => s_vals x | None => [] end) (match dict_get lower k (e_attrs b) with Some x => s_vals x | None => [] end)).
      { specialize (G k). destruct (dict_get lower k (e_attrs a)), (dict_get lower k (e_attrs b)); try contradiction; [exact G|constructor]. }
      revert P. generalize (match dict_get lower k (e_attrs a) with Some x => s_vals x | None => [] end), (match dict_get lower k (e_attrs b) with Some x => s_vals x | None => [] end).
      intros l m P. pose proof (sort_to_bytes_bytes l) as Sl. pose proof (sort_to_bytes_bytes m) as Sm.
      destruct (mapR_bytes_perm l m P) as [(bs & cs & X & Y & Q)|(X & Y)]; rewrite X in Sl; rewrite Y in Sm.
      - destruct Sl as (l' & -> & _ & Ml), Sm as (m' & -> & _ & Mm). cbn [bind]. destruct IH as [(p & q & -> & -> & R)|(-> & ->)]; cbn [bind]; [left|right; auto].
        eexists _, _. split; [reflexivity|]. split; [reflexivity|]. constructor; [|exact R]. right. cbn [fst snd]. split; [reflexivity|]. eexists. split; [exact Ml|]. rewrite Mm. f_equal. symmetry. now apply sort_bytes_unique.
      - rewrite Sl, Sm. right. auto. }
    destruct C as [(l & m & -> & -> & R)|(-> & ->)]; [|reflexivity]. cbn [bind]. destruct (other_items lower b) as [o|]; [|reflexivity]. cbn [bind].
    unfold asLDIF. rewrite (attrs_ldif_alike (l ++ o) (m ++ o)); [reflexivity|]. apply Forall2_app; [exact R|]. clear. induction o; constructor; auto. now left.
  Qed.
  Lemma equal_add a b : well_formed lower a -> well_formed lower b -> e_dn a = e_dn b -> entry_eq lower a b = Ok true ->
    add_asLDIF lower oc a = add_asLDIF lower oc b.
  Proof. intros. unfold add_asLDIF. now rewrite (equal_toWire a b). Qed.
End Entries.

(** ** Modifications *)
Lemma mod_eqb_iff a b : mod_eqb a b = true <-> same_change a b.
Proof.
  unfold mod_eqb, same_change. rewrite !andb_true_iff, pyval_eqb_eq, set_eqb_iff. destruct (d_kind a), (d_kind b); cbn [kind_eqb]; intuition discriminate.
Qed.
Lemma mods_eqb_iff ms ns : list_eqb mod_eqb ms ns = true <-> Forall2 same_change ms ns.
Proof.
  revert ns. induction ms as [|m ms IH]; intros [|n ns]; cbn [list_eqb]; try (split; [discriminate|inversion 1]).
  - split; auto.
  - rewrite andb_true_iff, mod_eqb_iff, IH. split; [intros (A & B); auto|inversion 1; auto].
Qed.
Lemma modify_eq_iff lower d d' ms ns : modify_eq lower d d' ms ns = true <-> dn_eqb lower d d' = true /\ Forall2 same_change ms ns.
Proof.
  unfold modify_eq. rewrite <- mods_eqb_iff. destruct (dn_eqb lower d d'), (list_eqb mod_eqb ms ns); cbn [negb]; intuition discriminate.
Qed.
Lemma same_mod_ldif a b : NoDup (d_vals a) -> NoDup (d_vals b) -> same_change a b -> mod_asLDIF a = mod_asLDIF b.
Proof.
  intros Na Nb (K & Ke & V). unfold mod_asLDIF. rewrite (sort_values_perm (d_vals a) (d_vals b)) by (apply NoDup_Permutation; auto). now rewrite K, Ke.
Qed.
Lemma same_modify_ldif d ms ns : Forall (fun m => NoDup (d_vals m)) ms -> Forall (fun m => NoDup (d_vals m)) ns -> Forall2 same_change ms ns ->
  modify_asLDIF d ms = modify_asLDIF d ns.
Proof.
  intros Fm Fn F. unfold modify_asLDIF. replace (mapR mod_asLDIF ns) with (mapR mod_asLDIF ms); [reflexivity|].
  revert Fm Fn. induction F as [|a b ms ns C F IH]; intros Fm Fn; [reflexivity|]. inversion Fm; inversion Fn; subst. cbn [mapR].
  rewrite (same_mod_ldif a b) by assumption. rewrite IH by assumption. reflexivity.
Qed.

(** ** Their effect *)
Section Effect.
  Variable lower : str -> str.
  Notation lowv := (lowv lower).
  Definition same_set (x y : option (pyval -> Prop)) : Prop :=
    match x, y with Some P, Some Q => forall v, P v <-> Q v | None, None => True | _, _ => False end.
  Definition same_map (A C : amap) : Prop := forall k, same_set (A k) (C k).
  Definition same_omap (x y : option amap) : Prop :=
    match x, y with Some A, Some C => same_map A C | None, None => True | _, _ => False end.
  Lemma same_upd A C k x y : same_map A C -> same_set x y ->
    same_map (upd lower A k x) (upd lower C k y).
  Proof. intros S X k'. unfold upd. destruct (pyval_eqb (lowv k) k'); [exact X|apply S]. Qed.
  Lemma nil_same (vs ws : list pyval) : (forall v, In v vs <-> In v ws) -> vs = [] -> ws = [].
  Proof. intros V ->. destruct ws as [|w ws]; [reflexivity|]. destruct (proj2 (V w) (or_introl eq_refl)). Qed.
  Lemma modifies_same m n A C x y : same_change m n -> same_map A C -> modifies lower m A x -> modifies lower n C y -> same_omap x y.
  Proof.
    intros (K & Ke & V) S X Y. destruct m as [k key vs], n as [k2 key2 ws]. cbn [d_kind d_key d_vals] in *. subst k2 key2.
    assert (V' : forall v, In v ws <-> In v vs) by (intros v; symmetry; apply V).
    pose proof (S (lowv key)) as Sk.
    inversion X; subst; inversion Y; subst; cbn [same_omap];
      repeat match goal with
      | H : A (lowv key) = _ |- _ => rewrite H in Sk; revert H
      | H : C (lowv key) = _ |- _ => rewrite H in Sk; revert H
      end; intros; unfold same_set in Sk;
      repeat match goal with
      | N : ?l <> [] |- _ => first [exfalso; apply N; apply (nil_same _ _ V); reflexivity | exfalso; apply N; apply (nil_same _ _ V'); reflexivity | revert N]
      end; intros; try contradiction; try exact I.
    all: try (apply same_upd; [exact S|]); try exact I; try exact V.
    - (* add *) intros v. specialize (V v). destruct (A (lowv key)) as [P|], (C (lowv key)) as [Q|]; try contradiction.
      + split; intros [H|(R & E & H)]; try (left; tauto); right; injection E as <-; eexists; (split; [reflexivity|]); apply Sk, H.
      + split; intros [H|(R & E & H)]; try (left; tauto); discriminate.
    - match goal with N : ~ Forall _ _ |- _ => apply N end. apply Forall_forall. intros v Iv. destruct (proj2 (V v) Iv).
    - (* delete values *) intros v. specialize (V v). specialize (Sk v). tauto.
    - match goal with F : Forall ?P vs, N : ~ Forall ?Q ws |- _ => apply N; rewrite Forall_forall in *; intros v Iv; apply Sk, F, V, Iv end.
    - match goal with N : ~ Forall _ _ |- _ => apply N end. apply Forall_forall. intros v Iv. destruct (proj1 (V v) Iv).
    - match goal with F : Forall ?P ws, N : ~ Forall ?Q vs |- _ => apply N; rewrite Forall_forall in *; intros v Iv; apply Sk, F, V, Iv end.
  Qed.

  Lemma modifies_all_same ms ns : Forall2 same_change ms ns -> forall A C x y, same_map A C ->
    modifies_all lower ms A x -> modifies_all lower ns C y -> same_omap x y.
  Proof.
    induction 1 as [|m n ms ns H F IH]; intros A C x y S X Y.
    - inversion X; inversion Y; subst. exact S.
    - inversion X as [|? ? ? Xm|? ? ? A' ? Xm Xr]; inversion Y as [|? ? ? Ym|? ? ? C' ? Ym Yr]; subst;
        pose proof (modifies_same m n A C _ _ H S Xm Ym) as Q; cbn [same_omap] in Q; try contradiction; [exact I|]. exact (IH A' C' x y Q Xr Yr).
  Qed.
  Lemma represents_map e f A C : represents lower e A -> represents lower f C ->
    same_map A C -> forall k, (has lower e k <-> has lower f k) /\ forall v, holds lower e k v <-> holds lower f k v.
  Proof.
    intros R R' S k. specialize (R k). specialize (R' k). specialize (S (lowv k)). unfold same_set in S.
    assert (NN : forall e, ~ has lower e k -> forall v, ~ holds lower e k v) by (intros x N v (a & I & Ea & _); apply N; exists a; auto).
    destruct (A (lowv k)) as [P|], (C (lowv k)) as [Q|]; try contradiction.
    - destruct R as (H1 & H2), R' as (H3 & H4). split; [tauto|]. intros v. rewrite <- H2, <- H4. apply S.
    - split; [tauto|]. intros v. split; intros X; exfalso; [exact (NN e R v X)|exact (NN f R' v X)].
  Qed.
  (** The spelling of the attributes. *)
  Definition key_step (m : delta) (I : pyval -> Prop) (x : pyval) : Prop :=
    match d_kind m, d_vals m with
    | MAdd, _ => I x \/ (x = d_key m /\ ~ exists k, I k /\ lowv k = lowv (d_key m))
    | MDelete, _ :: _ => I x
    | MDelete, [] | MReplace, [] => I x /\ lowv x <> lowv (d_key m)
    | MReplace, _ :: _ => x = d_key m \/ (I x /\ lowv x <> lowv (d_key m))
    end.
  Lemma keys_set k vs e x : NoDup (lowkeys lower (e_attrs e)) ->
    In x (keys_of (setitem lower k vs e)) <-> x = k \/ (In x (keys_of e) /\ lowv x <> lowv k).
  Proof.
    intros N. unfold keys_of, setitem. cbn [e_attrs]. rewrite !in_map_iff. split.
    - intros (a & <- & I). apply In_dict_set in I as [->|(I & L)]; [now left| |exact N]. right. split; [eauto|exact L].
    - intros [->|((a & <- & I) & L)]; [exists (mkSet k (set_of vs)); split; [reflexivity|apply In_dict_set; auto]|]. exists a. split; [reflexivity|]. apply In_dict_set; auto.
  Qed.
  Lemma keys_del k d l x : In x (keys_of (mkEntry d (dict_del lower k l))) <-> In x (map s_key l) /\ lowv x <> lowv k.
  Proof.
    unfold keys_of. cbn [e_attrs]. rewrite !in_map_iff. split.
    - intros (a & <- & I). apply In_dict_del in I as (I & L). split; [eauto|exact L].
    - intros ((a & <- & I) & L). exists a. split; [reflexivity|]. now apply In_dict_del.
  Qed.
  Lemma patch1_keys kt vt m e e' : entry_ok lower kt vt e -> delta_ok kt vt m -> patch1 lower m e = (e', Ok tt) ->
    forall x, In x (keys_of e') <-> key_step m (fun k => In k (keys_of e)) x.
  Proof.
    intros O (Tk & Tv & D) P x. pose proof (proj2 O) as N. unfold patch1 in P. unfold key_step. destruct (d_kind m).
    - rewrite (find_key_typed lower kt vt _ e Tk O) in P. destruct (dict_get lower (d_key m) (e_attrs e)) as [a|] eqn:G.
      + injection P as <-. rewrite keys_set_vals. split; [auto|]. intros [I|(_ & H)]; [exact I|]. exfalso. apply H.
        apply dict_get_some in G as (I & L). exists (s_key a). split; [apply in_map, I|exact L].
      + injection P as <-. rewrite keys_set by exact N. assert (Z : ~ exists k, In k (keys_of e) /\ lowv k = lowv (d_key m)).
        { intros (k & I & L). unfold keys_of in I. apply in_map_iff in I as (a & <- & I). exact (dict_get_none lower _ _ G a I L). }
        split; [intros [->|(I & _)]; auto|]. intros [I|(-> & _)]; [|now left]. right. split; [exact I|]. intros L. apply Z. eauto.
    - destruct (d_vals m) as [|v vs] eqn:E.
      + unfold delitem in P. destruct (dict_get lower (d_key m) (e_attrs e)); [|discriminate]. injection P as <-. apply keys_del.
      + assert (K : keys_of e' = keys_of e) by (eapply (keys_remove_all lower kt vt (d_key m) (v :: vs)); eauto). rewrite K. tauto.
    - destruct (d_vals m) as [|v vs] eqn:E.
      + unfold delitem in P. destruct (dict_get lower (d_key m) (e_attrs e)) as [a|] eqn:G; injection P as <-; [apply keys_del|].
        split; [|tauto]. intros I. split; [exact I|]. intros L. unfold keys_of in I. apply in_map_iff in I as (a & <- & I). exact (dict_get_none lower _ _ G a I L).
      + injection P as <-. apply keys_set. exact N.
  Qed.
  Lemma key_step_same m n I J x : same_change m n -> (forall k, I k <-> J k) -> key_step m I x <-> key_step n J x.
  Proof.
    intros (K & Ke & V) E. unfold key_step. rewrite <- K, <- Ke.
    assert (Z : d_vals m = [] <-> d_vals n = []) by (split; apply nil_same; [exact V|intros v; symmetry; apply V]).
    assert (X : (exists k, I k /\ lowv k = lowv (d_key m)) <-> (exists k, J k /\ lowv k = lowv (d_key m))).
    { split; intros (k & A & B); exists k; (split; [apply E, A|exact B]). }
    destruct (d_kind m), (d_vals m), (d_vals n); try (exfalso; destruct Z as (Z1 & Z2); (discriminate (Z1 eq_refl) || discriminate (Z2 eq_refl))); rewrite ?X, (E x); reflexivity.
  Qed.
  Lemma patch_keys_same kt vt ms ns : Forall2 same_change ms ns -> forall e f e' f', entry_ok lower kt vt e -> entry_ok lower kt vt f ->
    Forall (delta_ok kt vt) ms -> Forall (delta_ok kt vt) ns -> (forall k, In k (keys_of e) <-> In k (keys_of f)) ->
    patch_all lower ms e = (e', Ok tt) -> patch_all lower ns f = (f', Ok tt) -> forall k, In k (keys_of e') <-> In k (keys_of f').
  Proof.
    induction 1 as [|m n ms ns H F IH]; intros e f e' f' Oe Of Dm Dn K Pe Pf; cbn [patch_all] in *; [injection Pe as <-; injection Pf as <-; exact K|].
    inversion Dm; inversion Dn; subst.
    destruct (represents_some lower e) as (A & RA). destruct (represents_some lower f) as (C & RC).
    destruct (patch1_spec lower kt vt m e A Oe) as (e1 & r1 & E1 & O1 & _); [assumption..|].
    destruct (patch1_spec lower kt vt n f C Of) as (f1 & s1 & F1 & O2 & _); [assumption..|].
    rewrite E1 in Pe. rewrite F1 in Pf. destruct r1 as [[]|]; [|discriminate]. destruct s1 as [[]|]; [|discriminate].
    apply (IH e1 f1 e' f'); auto. intros k. rewrite (patch1_keys kt vt m e e1), (patch1_keys kt vt n f f1) by assumption. now apply key_step_same.
  Qed.

  (** Equal modifications on equal entries succeed alike, and then give equal entries. *)
  Lemma equal_effect kt vt ms ns e f : entry_ok lower kt vt e -> entry_ok lower kt vt f ->
    Forall (delta_ok kt vt) ms -> Forall (delta_ok kt vt) ns -> Forall2 same_change ms ns -> entry_eq lower e f = Ok true ->
    exists e' f' r, patch_all lower ms e = (e', r) /\ patch_all lower ns f = (f', r) /\
      ((r = Ok tt /\ entry_eq lower e' f' = Ok true) \/ r = Err EKey).
  Proof.
    intros Oe Of Dm Dn S Q. destruct (entry_eq_spec lower kt vt e f Oe Of) as (b & B & E). rewrite Q in B. apply Ok_inj in B. subst b.
    destruct (proj1 E eq_refl) as (Ed & K & V).
    destruct (represents_some lower e) as (A & RA).
    assert (RC : represents lower f A).
    { intros k. specialize (RA k). assert (Hh : has lower e k <-> has lower f k) by (rewrite !has_keys; split; intros (k' & I & L); exists k'; (split; [apply K, I|exact L])).
      destruct (A (lowv k)) as [P|]; [|tauto]. destruct RA as (H & W). split; [tauto|]. intros v. rewrite W. apply V. }
    destruct (patch_all_spec lower kt vt ms e A Oe Dm RA) as (e' & r & Pe & Oe' & De & Re).
    destruct (patch_all_spec lower kt vt ns f A Of Dn RC) as (f' & s & Pf & Of' & Df & Rf).
    assert (SA : same_map A A) by (intros k; unfold same_set; destruct (A k); [tauto|exact I]).
    exists e', f', r. split; [exact Pe|].
    destruct Re as [(-> & A1 & M1 & R1)|(-> & M1)], Rf as [(-> & A2 & M2 & R2)|(-> & M2)];
      pose proof (modifies_all_same ms ns S A A _ _ SA M1 M2) as Z; cbn [same_omap] in Z; try contradiction; (split; [exact Pf|]); [left|right; reflexivity].
    split; [reflexivity|]. destruct (entry_eq_spec lower kt vt e' f' Oe' Of') as (b & -> & B). f_equal. apply B. split; [congruence|].
    split; [|intros k; apply (represents_map e' f' A1 A2 R1 R2 Z k)]. exact (patch_keys_same kt vt ms ns S e f e' f' Oe Of Dm Dn K Pe Pf).
  Qed.
End Effect.
