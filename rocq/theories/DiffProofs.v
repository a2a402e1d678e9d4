(** diff followed by patch (C22). *)
From Coq Require Import Permutation.
From Verif Require Import BaseFacts Utf8Model Utf8Proofs DnModel DnSpec DnProofs EntryModel EntrySpec EntryProofs SortFacts.

Definition tb (v : pyval) : bytes := match to_bytes v with Ok b => b | Err _ => [] end.
Lemma tb_eq t v : typed t v -> to_bytes v = Ok (tb v).
Proof. intros T. destruct (typed_bytes t v T) as (b & E). unfold tb. now rewrite E. Qed.

Lemma sort_to_bytes_eq t l : Forall (typed t) l ->
  sort_to_bytes l = Ok (map snd (sort_by (fun x y => bytes_leb (fst x) (fst y)) (map (fun v => (tb v, v)) l))).
Proof.
  intros F. unfold sort_to_bytes.
  assert (mapR (fun v => do b <- to_bytes v; Ok (b, v)) l = Ok (map (fun v => (tb v, v)) l)) as ->; [|reflexivity].
  induction F as [|v l T F IH]; [reflexivity|]. cbn [mapR map]. rewrite (tb_eq t v T). cbn [bind]. rewrite IH. reflexivity.
Qed.
Lemma sort_to_bytes_typed t l : Forall (typed t) l -> exists l', sort_to_bytes l = Ok l' /\ Permutation l l'.
Proof.
  intros F. rewrite (sort_to_bytes_eq t l F). eexists. split; [reflexivity|].
  pose proof (sort_perm (fun x y : bytes * pyval => bytes_leb (fst x) (fst y)) (map (fun v => (tb v, v)) l)) as P.
  apply (Permutation_map snd) in P. rewrite map_map in P. cbn [snd] in P. rewrite map_id in P. exact P.
Qed.
Lemma sort_to_bytes_same t l m : Forall (typed t) l -> Permutation l m -> sort_to_bytes l = sort_to_bytes m.
Proof.
  intros F P. assert (Fm : Forall (typed t) m) by (rewrite Forall_forall in *; intros x I; apply F; eapply Permutation_in; [symmetry; exact P|exact I]).
  rewrite (sort_to_bytes_eq t l F), (sort_to_bytes_eq t m Fm). do 2 f_equal. apply sort_unique.
  - intros x y. apply bytes_leb_total.
  - intros x y z. apply bytes_leb_trans.
  - intros x y I J A B. apply in_map_iff in I as (v & <- & I), J as (w & <- & J). cbn [fst] in *.
    assert (E : tb v = tb w) by (apply bytes_leb_antisym; assumption).
    rewrite Forall_forall in F. f_equal; [exact E|].
    eapply (typed_bytes_inj t v w (tb v)); auto; [eapply tb_eq; eauto|rewrite E; eapply tb_eq; eauto].
  - now apply Permutation_map.
Qed.
Lemma list_eqb_refl {A} (eqb : A -> A -> bool) l : (forall x, eqb x x = true) -> list_eqb eqb l l = true.
Proof. intros H. induction l; cbn; [reflexivity|]. now rewrite H, IHl. Qed.
Lemma list_eqb_pyval l m : list_eqb pyval_eqb l m = true <-> l = m.
Proof.
  revert m. induction l as [|x l IH]; intros [|y m]; cbn; try (split; congruence).
  rewrite andb_true_iff, pyval_eqb_eq, IH. split; [intros [-> ->]; reflexivity|intros [= -> ->]; auto].
Qed.

Section Diff.
  Variable lower : str -> str.
  Notation lowv := (lowv lower). Notation dict_get := (dict_get lower).
  Notation entry_ok := (entry_ok lower). Notation holds := (holds lower). Notation has := (has lower).
  Notation getitem := (getitem lower).

  Lemma keys_typed kt vt e : entry_ok kt vt e -> Forall (typed kt) (keys_of e).
  Proof.
    intros (F & _). unfold keys_of. apply Forall_forall. intros k I. apply in_map_iff in I as (a & <- & I).
    rewrite Forall_forall in F. apply F in I. tauto.
  Qed.
  Lemma keys_NoDup kt vt e : entry_ok kt vt e -> NoDup (keys_of e).
  Proof.
    intros (_ & N). unfold keys_of. rewrite <- (map_map s_key lowv) in N. eapply NoDup_map_inv; exact N.
  Qed.
  Lemma keys_has e k : In k (keys_of e) -> has e k.
  Proof. intros I. apply in_map_iff in I as (a & <- & I). exists a. auto. Qed.
  Lemma has_keys e k : has e k <-> exists k', In k' (keys_of e) /\ lowv k' = lowv k.
  Proof.
    split.
    - intros (a & I & E). exists (s_key a). split; [now apply in_map|exact E].
    - intros (k' & I & E). apply in_map_iff in I as (a & <- & I). exists a. auto.
  Qed.
  Lemma get_exact kt vt e k a : entry_ok kt vt e -> In k (keys_of e) -> dict_get k (e_attrs e) = Some a -> s_key a = k.
  Proof.
    intros (_ & N) I G. apply in_map_iff in I as (b & <- & I). apply dict_get_some in G as (J & E).
    f_equal. eapply lowkeys_inj; eauto.
  Qed.
  Lemma holds_ext e k k' v : lowv k = lowv k' -> holds e k v <-> holds e k' v.
  Proof. intros E. unfold EntrySpec.holds. now rewrite E. Qed.
  Lemma has_ext e k k' : lowv k = lowv k' -> has e k <-> has e k'.
  Proof. intros E. unfold EntrySpec.has. now rewrite E. Qed.

  Lemma eq_loop_spec kt vt a b ks : entry_ok kt vt a -> entry_ok kt vt b ->
    Forall (fun k => In k (keys_of a) /\ In k (keys_of b)) ks ->
    exists r, eq_loop lower ks a b = Ok r /\ (r = true <-> Forall (fun k => forall v, holds a k v <-> holds b k v) ks).
  Proof.
    intros Oa Ob. induction 1 as [|k ks (Ia & Ib) F (r & IH & IHr)]; cbn [eq_loop]; [exists true; split; [reflexivity|]; split; auto|].
    assert (T : typed kt k) by (pose proof (keys_typed _ _ _ Oa) as X; rewrite Forall_forall in X; auto).
    rewrite (getitem_typed lower kt vt k a T Oa), (getitem_typed lower kt vt k b T Ob).
    destruct (proj1 (has_get lower a k) (keys_has a k Ia)) as (x & Gx).
    destruct (proj1 (has_get lower b k) (keys_has b k Ib)) as (y & Gy). rewrite Gx, Gy. cbn [bind].
    assert (E : aset_eqb x y = true <-> forall v, holds a k v <-> holds b k v).
    { unfold aset_eqb. rewrite (get_exact _ _ _ _ _ Oa Ia Gx), (get_exact _ _ _ _ _ Ob Ib Gy), pyval_eqb_refl.
      cbn [andb]. rewrite set_eqb_iff. split; intros H v; specialize (H v);
        rewrite ?(holds_get lower kt vt a k v x Oa Gx), ?(holds_get lower kt vt b k v y Ob Gy) in *; exact H. }
    destruct (aset_eqb x y); cbn [negb].
    - exists r. split; [exact IH|]. rewrite IHr. split; [intros H; constructor; [tauto|exact H]|].
      intros H. exact (Forall_inv_tail H).
    - exists false. split; [reflexivity|]. split; [discriminate|]. intros H. apply Forall_inv in H. tauto.
  Qed.

  (** __eq__ says what it should, for entries of one key and value type. *)
  Lemma entry_eq_spec kt vt a b : entry_ok kt vt a -> entry_ok kt vt b ->
    exists r, entry_eq lower a b = Ok r /\
      (r = true <-> dn_eqb lower (e_dn a) (e_dn b) = true /\ (forall k, In k (keys_of a) <-> In k (keys_of b)) /\
                    forall k v, holds a k v <-> holds b k v).
  Proof.
    intros Oa Ob. unfold entry_eq. destruct (dn_eqb lower (e_dn a) (e_dn b)); cbn [negb].
    2:{ exists false. split; [reflexivity|]. split; [discriminate|]. intros (X & _). discriminate. }
    pose proof (keys_typed _ _ _ Oa) as Ta. pose proof (keys_typed _ _ _ Ob) as Tb.
    destruct (sort_to_bytes_typed kt _ Ta) as (la & Sa & Pa). destruct (sort_to_bytes_typed kt _ Tb) as (lb & Sb & Pb).
    rewrite Sa, Sb. cbn [bind]. destruct (list_eqb pyval_eqb la lb) eqn:E; cbn [negb].
    - apply list_eqb_pyval in E. subst lb.
      assert (K : forall k, In k (keys_of a) <-> In k (keys_of b)).
      { intros k. split; intros I.
        - eapply Permutation_in; [symmetry; exact Pb|]. eapply Permutation_in; [exact Pa|exact I].
        - eapply Permutation_in; [symmetry; exact Pa|]. eapply Permutation_in; [exact Pb|exact I]. }
      assert (F : Forall (fun k => In k (keys_of a) /\ In k (keys_of b)) la).
      { apply Forall_forall. intros k I. split; [eapply Permutation_in; [symmetry; exact Pa|exact I]|eapply Permutation_in; [symmetry; exact Pb|exact I]]. }
      destruct (eq_loop_spec kt vt a b la Oa Ob F) as (r & R & H). exists r. split; [exact R|]. rewrite H. split.
      + intros G. split; [reflexivity|]. split; [exact K|]. intros k v. rewrite Forall_forall in G.
        assert (Hk : forall k, has a k -> forall v, holds a k v <-> holds b k v).
        { intros k0 Hk v0. apply has_keys in Hk as (k1 & I1 & E1).
          rewrite <- (holds_ext a _ _ v0 E1), <- (holds_ext b _ _ v0 E1). apply G. eapply Permutation_in; [exact Pa|exact I1]. }
        split; intros HV.
        * apply Hk; [|exact HV]. destruct HV as (x & I & Ex & _). exists x. auto.
        * apply Hk; [|exact HV]. destruct HV as (x & I & Ex & _). apply has_keys. exists (s_key x). split; [|exact Ex].
          apply K. now apply in_map.
      + intros (_ & _ & G). apply Forall_forall. intros k _. apply G.
    - exists false. split; [reflexivity|]. split; [discriminate|]. intros (_ & K & _). exfalso.
      assert (P : Permutation (keys_of a) (keys_of b)).
      { apply NoDup_Permutation; [exact (keys_NoDup _ _ _ Oa)|exact (keys_NoDup _ _ _ Ob)|exact K]. }
      rewrite (sort_to_bytes_same kt _ _ Ta P), Sb in Sa. apply Ok_inj in Sa. subst.
      rewrite list_eqb_refl in E; [discriminate|exact pyval_eqb_refl].
  Qed.

  (** *** Patching key by key *)
  Lemma patch_all_app ms ns e e1 : patch_all lower ms e = (e1, Ok tt) -> patch_all lower (ms ++ ns) e = patch_all lower ns e1.
  Proof.
    revert e. induction ms as [|m ms IH]; intros e H; cbn [patch_all app] in *; [congruence|].
    destruct (patch1 lower m e) as (e2 & [u|x]); [auto|discriminate].
  Qed.

  Lemma keys_set_vals a vs e : keys_of (set_vals lower a vs e) = keys_of e.
  Proof.
    unfold keys_of, set_vals. cbn [e_attrs]. induction (e_attrs e) as [|b l IH]; [reflexivity|]. cbn [dict_upd map].
    destruct (same_key lower (s_key a) b); cbn [map s_key]; [reflexivity|now rewrite IH].
  Qed.
  Lemma keys_remove_all kt vt k vs : forall e e' r, typed kt k -> entry_ok kt vt e -> Forall (typed vt) vs -> NoDup vs ->
    remove_all lower k vs e = (e', r) -> keys_of e' = keys_of e.
  Proof.
    induction vs as [|v vs IH]; intros e e' r T O F D H; cbn [remove_all] in H; [congruence|].
    rewrite (getitem_typed lower kt vt k e T O) in H.
    destruct (dict_get k (e_attrs e)) as [a|] eqn:G; cbn [bind] in H; [|congruence].
    pose proof (entry_ok_get lower _ _ _ _ _ O G) as (Ta & Fa & Da).
    rewrite (aset_remove_typed vt v (s_vals a) (Forall_inv F) Fa) in H.
    destruct (mem v (s_vals a)); cbn [bind] in H; [|congruence].
    rewrite <- (keys_set_vals a (set_del v (s_vals a)) e). inversion D; subst. eapply IH; eauto; [|exact (Forall_inv_tail F)].
    apply (set_vals_ok lower kt vt e a _ k O G); [|now apply NoDup_filter].
    apply Forall_forall. intros x X. apply In_set_del in X as [X _]. rewrite Forall_forall in Fa. auto.
  Qed.
  Lemma keys_setitem_new k vs e : ~ has e k -> keys_of (setitem lower k vs e) = keys_of e ++ [k].
  Proof.
    unfold keys_of, setitem, EntrySpec.has. cbn [e_attrs]. induction (e_attrs e) as [|b l IH]; intros N; [reflexivity|].
    cbn [dict_set map]. destruct (same_key_spec lower k b) as [E|E].
    - exfalso. apply N. exists b. split; [now left|exact E].
    - cbn [map]. rewrite IH; [reflexivity|]. intros (c & I & Ec). apply N. exists c. split; [now right|exact Ec].
  Qed.

  (** Before its turn, a key is in [e] as it is in [self]. *)
  Definition agrees (self e : entry) (k : pyval) : Prop :=
    (forall x, lowv x = lowv k -> In x (keys_of e) <-> In x (keys_of self)) /\ (forall v, holds e k v <-> holds self k v).
  (** What processing one key must do. *)
  Definition key_done kt vt (other : entry) (k : pyval) (ms : list delta) (e : entry) : Prop :=
    exists e', patch_all lower ms e = (e', Ok tt) /\ entry_ok kt vt e' /\ e_dn e' = e_dn e /\
      (forall x, lowv x <> lowv k -> In x (keys_of e') <-> In x (keys_of e)) /\
      (forall k' v, holds e' k' v <-> (lowv k' = lowv k /\ holds other k v) \/ (lowv k' <> lowv k /\ holds e k' v)) /\
      (In k (keys_of other) -> forall x, lowv x = lowv k -> In x (keys_of e') <-> x = k).

  Lemma keys_done kt vt self other f ks : forall e,
    (forall k e, In k ks -> entry_ok kt vt e -> agrees self e k -> key_done kt vt other k (f k) e) ->
    NoDup (map lowv ks) -> entry_ok kt vt e -> Forall (agrees self e) ks ->
    exists e', patch_all lower (flat_map f ks) e = (e', Ok tt) /\ entry_ok kt vt e' /\ e_dn e' = e_dn e /\
      (forall x, ~ In (lowv x) (map lowv ks) -> In x (keys_of e') <-> In x (keys_of e)) /\
      (forall k' v, holds e' k' v <-> (In (lowv k') (map lowv ks) /\ holds other k' v) \/
                                      (~ In (lowv k') (map lowv ks) /\ holds e k' v)) /\
      (forall k, In k ks -> In k (keys_of other) -> forall x, lowv x = lowv k -> In x (keys_of e') <-> x = k).
  Proof.
    induction ks as [|k ks IH]; intros e HF N O AG; cbn [flat_map map].
    - exists e. split; [reflexivity|]. split; [exact O|]. split; [reflexivity|]. cbn. repeat split; tauto.
    - cbn [map] in N. inversion N as [|? ? Ni N']; subst.
      destruct (HF k e (or_introl eq_refl) O (Forall_inv AG)) as (e1 & P1 & O1 & D1 & K1 & V1 & S1).
      destruct (IH e1) as (e' & P & O' & D & K & V & S0).
      + intros k0 e0 I. apply HF. now right.
      + exact N'.
      + exact O1.
      + apply Forall_forall. intros k0 I. pose proof (Forall_inv_tail AG) as AG'. rewrite Forall_forall in AG'.
        destruct (AG' k0 I) as (A1 & A2).
        assert (Ne : lowv k0 <> lowv k) by (intros E; apply Ni; rewrite <- E; now apply in_map).
        split.
        * intros x Ex. rewrite K1; [apply A1, Ex|congruence].
        * intros v. rewrite V1, <- A2. tauto.
      + exists e'. split; [rewrite (patch_all_app _ _ _ _ P1); exact P|]. split; [exact O'|]. split; [congruence|].
        split; [|split].
        * intros x Nx. cbn [In] in Nx. rewrite K, K1; [tauto|intros E; apply Nx; left; congruence|tauto].
        * intros k' v. rewrite V, V1. cbn [In]. destruct (pyval_eqb_spec (lowv k') (lowv k)) as [E|E].
          -- rewrite (holds_ext other _ _ v E). assert (~ In (lowv k') (map lowv ks)) by (rewrite E; exact Ni).
             pose proof (eq_sym E). tauto.
          -- assert (lowv k <> lowv k') by congruence. tauto.
        * intros k0 [<-|I] Ik x Ex.
          -- rewrite K; [now apply S1|]. rewrite Ex. exact Ni.
          -- now apply S0.
  Qed.

  (** *** The three cases of diff *)
  Section Two.
    Variables (kt vt : bool) (self other : entry).
    Hypothesis Os : entry_ok kt vt self.
    Hypothesis Oo : entry_ok kt vt other.
    (** No key is spelled differently in the two entries. *)
    Hypothesis spelled : forall k k', In k (keys_of self) -> In k' (keys_of other) -> lowv k = lowv k' -> k = k'.

    Lemma new_delta_ok kd k vs : typed kt k -> Forall (typed vt) vs -> delta_ok kt vt (new_delta kd k vs).
    Proof.
      intros T F. split; [exact T|]. cbn. split; [|apply NoDup_set_of]. apply Forall_forall. intros x X.
      apply (proj1 (In_set_of _ _)) in X. rewrite Forall_forall in F. auto.
    Qed.
    Lemma other_key k : In k (keys_of other) -> typed kt k /\ exists a, dict_get k (e_attrs other) = Some a /\ Forall (typed vt) (s_vals a) /\ (forall v, In v (s_vals a) <-> holds other k v).
    Proof.
      intros I. split; [pose proof (keys_typed _ _ _ Oo) as X; rewrite Forall_forall in X; auto|].
      destruct (proj1 (has_get lower other k) (keys_has _ _ I)) as (a & G). exists a. split; [exact G|].
      split; [apply (entry_ok_get lower _ _ _ _ _ Oo G)|]. intros v. now rewrite (holds_get lower kt vt other k v a Oo G).
    Qed.
    Lemma self_key k : In k (keys_of self) -> typed kt k /\ exists a, dict_get k (e_attrs self) = Some a /\ Forall (typed vt) (s_vals a) /\ (forall v, In v (s_vals a) <-> holds self k v).
    Proof.
      intros I. split; [pose proof (keys_typed _ _ _ Os) as X; rewrite Forall_forall in X; auto|].
      destruct (proj1 (has_get lower self k) (keys_has _ _ I)) as (a & G). exists a. split; [exact G|].
      split; [apply (entry_ok_get lower _ _ _ _ _ Os G)|]. intros v. now rewrite (holds_get lower kt vt self k v a Os G).
    Qed.

    (** Only one spelling of each key in an entry. *)
    Lemma one_spelling e k x : entry_ok kt vt e -> In k (keys_of e) -> In x (keys_of e) -> lowv x = lowv k -> x = k.
    Proof.
      intros (_ & N) I J E. apply in_map_iff in I as (a & <- & I), J as (b & <- & J). f_equal. eapply lowkeys_inj; eauto.
    Qed.

    Lemma done_added k a e : In k (keys_of other) -> ~ In k (keys_of self) -> dict_get k (e_attrs other) = Some a ->
      entry_ok kt vt e -> agrees self e k -> key_done kt vt other k [new_delta MAdd k (s_vals a)] e.
    Proof.
      intros Io Ns G O (A1 & A2). destruct (other_key k Io) as (T & a' & G' & F & V). assert (a' = a) by congruence. subst a'. clear G'.
      assert (Nh : ~ has e k).
      { intros H. apply has_keys in H as (x & I & E). pose proof (proj1 (A1 x E) I) as J.
        apply Ns. rewrite <- (spelled x k J Io E). exact J. }
      assert (GN : dict_get k (e_attrs e) = None).
      { destruct (dict_get k (e_attrs e)) eqn:X; [|reflexivity]. exfalso. apply Nh, has_get. eauto. }
      destruct (new_delta_ok MAdd k (s_vals a) T F) as (_ & F2 & _).
      destruct (setitem_ok lower kt vt e k _ O T F2) as (O' & Hh & Hv).
      exists (setitem lower k (d_vals (new_delta MAdd k (s_vals a))) e). split.
      { cbn [patch_all]. unfold patch1. cbn [d_kind d_key new_delta]. rewrite (find_key_typed lower kt vt k e T O), GN. reflexivity. }
      split; [exact O'|]. split; [reflexivity|]. rewrite (keys_setitem_new k _ e Nh). split; [|split].
      - intros x Ne. rewrite in_app_iff. cbn. split; [intros [X|[X|[]]]; [exact X|congruence]|auto].
      - intros k' v. rewrite Hv. cbn [d_vals new_delta]. rewrite In_set_of, V. tauto.
      - intros _ x E. rewrite in_app_iff. cbn. split; [|auto]. intros [X|[X|[]]]; [|auto]. exfalso. apply Nh, has_keys. eauto.
    Qed.

    Lemma done_deleted k a e : In k (keys_of self) -> ~ In k (keys_of other) -> dict_get k (e_attrs self) = Some a ->
      entry_ok kt vt e -> agrees self e k -> key_done kt vt other k [new_delta MDelete k (s_vals a)] e.
    Proof.
      intros Is No G O (A1 & A2). destruct (self_key k Is) as (T & a' & G' & F & V). assert (a' = a) by congruence. subst a'. clear G'.
      assert (NO : forall v, ~ holds other k v).
      { intros v (b & I & E & _). apply No. rewrite (spelled k (s_key b) Is (in_map s_key _ _ I)); [now apply in_map|congruence]. }
      destruct (new_delta_ok MDelete k (s_vals a) T F) as (_ & F2 & D2).
      cbn [d_vals new_delta] in F2, D2. unfold key_done. cbn [patch_all]. unfold patch1. cbn [d_kind d_key d_vals new_delta].
      destruct (set_of (s_vals a)) as [|v0 vs0] eqn:SV.
      - unfold delitem. assert (Hk : In k (keys_of e)) by (apply A1; auto).
        destruct (proj1 (has_get lower e k) (keys_has _ _ Hk)) as (b & Gb). rewrite Gb.
        destruct (dict_del_ok lower kt vt e k O) as (O' & Hh & Hv).
        eexists. split; [reflexivity|]. split; [exact O'|]. split; [reflexivity|]. split; [|split; [|tauto]].
        + intros x Ne. unfold keys_of. cbn [e_attrs]. rewrite !in_map_iff. split.
          * intros (c & <- & I). apply In_dict_del in I as (I & _). eauto.
          * intros (c & <- & I). exists c. rewrite In_dict_del. auto.
        + intros k' v. rewrite Hv. specialize (NO v). tauto.
      - set (vs := v0 :: vs0) in *. destruct (remove_all_spec lower kt vt k vs e T O F2 D2 ltac:(discriminate)) as (e' & r & RA & O' & Dn & Z).
        assert (IV : forall v, In v vs <-> holds e k v).
        { intros v. rewrite <- SV, In_set_of, V, A2. tauto. }
        destruct Z as [(-> & _ & _ & H3 & H4)|(_ & H1 & _)].
        + exists e'. rewrite RA. split; [reflexivity|]. split; [exact O'|]. split; [exact Dn|].
          rewrite (keys_remove_all kt vt k vs e e' (Ok tt) T O F2 D2 RA). split; [tauto|]. split; [|tauto].
          intros k' v. rewrite H4. destruct (pyval_eqb_spec (lowv k') (lowv k)) as [E|E].
          * rewrite (holds_ext e _ _ v E), <- IV. specialize (NO v). tauto.
          * tauto.
        + exfalso. apply H1. split; [apply keys_has, A1; auto|]. apply Forall_forall. intros v I. now apply IV.
    Qed.

    Lemma add_vals k vs e : typed kt k -> Forall (typed vt) vs -> entry_ok kt vt e -> has e k ->
      exists e', patch1 lower (new_delta MAdd k vs) e = (e', Ok tt) /\ entry_ok kt vt e' /\ e_dn e' = e_dn e /\ keys_of e' = keys_of e /\
        forall k' v, holds e' k' v <-> holds e k' v \/ (lowv k' = lowv k /\ In v vs).
    Proof.
      intros T F O H. unfold patch1. cbn [d_kind d_key d_vals new_delta]. rewrite (find_key_typed lower kt vt k e T O).
      apply has_get in H as (a & G). rewrite G. pose proof (entry_ok_get lower _ _ _ _ _ O G) as (Ta & Fa & Da).
      assert (FU : Forall (typed vt) (set_update (s_vals a) (set_of vs))).
      { apply Forall_forall. intros x X. apply In_set_update in X. rewrite In_set_of in X. rewrite Forall_forall in F, Fa. destruct X; auto. }
      destruct (set_vals_ok lower kt vt e a _ k O G FU (NoDup_set_update _ _ Da)) as (O' & Hh & Hv).
      eexists. split; [reflexivity|]. split; [exact O'|]. split; [reflexivity|]. split; [apply keys_set_vals|].
      intros k' v. rewrite Hv, In_set_update, In_set_of. destruct (pyval_eqb_spec (lowv k') (lowv k)) as [E|E].
      - rewrite (holds_ext e _ _ v E), (holds_get lower kt vt e k v a O G). tauto.
      - tauto.
    Qed.
    Lemma del_vals k vs e : typed kt k -> Forall (typed vt) vs -> entry_ok kt vt e -> vs <> [] -> has e k -> Forall (holds e k) vs ->
      exists e', patch1 lower (new_delta MDelete k vs) e = (e', Ok tt) /\ entry_ok kt vt e' /\ e_dn e' = e_dn e /\ keys_of e' = keys_of e /\
        forall k' v, holds e' k' v <-> holds e k' v /\ ~ (lowv k' = lowv k /\ In v vs).
    Proof.
      intros T F O Ne H FH. destruct (new_delta_ok MDelete k vs T F) as (_ & F2 & D2). unfold patch1.
      cbn [d_kind d_key d_vals new_delta] in *. destruct (set_of vs) as [|v0 vs0] eqn:SV.
      { exfalso. destruct vs as [|v vs]; [congruence|]. assert (In v (set_of (v :: vs))) by (apply In_set_of; now left). rewrite SV in H0. exact H0. }
      set (ws := v0 :: vs0) in *. destruct (remove_all_spec lower kt vt k ws e T O F2 D2 ltac:(discriminate)) as (e' & r & RA & O' & Dn & Z).
      assert (IV : forall v, In v ws <-> In v vs) by (intros v; rewrite <- SV; apply In_set_of).
      destruct Z as [(-> & _ & _ & H3 & H4)|(_ & H1 & _)].
      - exists e'. split; [exact RA|]. split; [exact O'|]. split; [exact Dn|].
        split; [exact (keys_remove_all kt vt k ws e e' (Ok tt) T O F2 D2 RA)|]. intros k' v. rewrite H4, IV. tauto.
      - exfalso. apply H1. split; [exact H|]. apply Forall_forall. intros v I. apply IV in I. rewrite Forall_forall in FH. auto.
    Qed.

    Lemma diff_shared_done k e : In k (keys_of self) -> In k (keys_of other) -> entry_ok kt vt e -> agrees self e k ->
      exists ms, diff_shared lower k self other = Ok ms /\ key_done kt vt other k ms e.
    Proof.
      intros Is Io O (A1 & A2). destruct (self_key k Is) as (T & s & Gs & Fs & Vs). destruct (other_key k Io) as (_ & o & Go & Fo & Vo).
      unfold diff_shared. rewrite (getitem_typed lower kt vt k other T Oo), (getitem_typed lower kt vt k self T Os), Go, Gs. cbn [bind].
      assert (HK : has e k) by (apply keys_has, A1; auto).
      assert (X1 : exists l, (match set_diff (s_vals o) (s_vals s) with [] => Ok [] | l => do l' <- sort_to_bytes l; Ok [new_delta MAdd k l'] end) = Ok l /\
                 exists e1, patch_all lower l e = (e1, Ok tt) /\ entry_ok kt vt e1 /\ e_dn e1 = e_dn e /\ keys_of e1 = keys_of e /\
                 forall k' v, holds e1 k' v <-> holds e k' v \/ (lowv k' = lowv k /\ holds other k v /\ ~ holds self k v)).
      { pose proof (fun v => In_set_diff v (s_vals o) (s_vals s)) as IN.
        assert (FD : Forall (typed vt) (set_diff (s_vals o) (s_vals s))).
        { apply Forall_forall. intros x X. apply IN in X as (X & _). rewrite Forall_forall in Fo. auto. }
        destruct (set_diff (s_vals o) (s_vals s)) as [|d ds] eqn:SD.
        - exists []. split; [reflexivity|]. exists e. cbn [patch_all]. split; [reflexivity|]. split; [exact O|]. split; [reflexivity|]. split; [reflexivity|].
          intros k' v. split; [auto|]. intros [X|(_ & X & Y)]; [exact X|]. exfalso. apply (proj2 (IN v)). rewrite Vo, Vs. auto.
        - destruct (sort_to_bytes_typed vt _ FD) as (l' & S' & P'). rewrite S'. cbn [bind]. eexists. split; [reflexivity|].
          assert (Fl : Forall (typed vt) l') by (rewrite Forall_forall in *; intros x I; apply FD; eapply Permutation_in; [symmetry; exact P'|exact I]).
          destruct (add_vals k l' e T Fl O HK) as (e1 & P1 & O1 & D1 & K1 & H1). exists e1. cbn [patch_all]. rewrite P1.
          split; [reflexivity|]. split; [exact O1|]. split; [exact D1|]. split; [exact K1|]. intros k' v. rewrite H1.
          assert (In v l' <-> holds other k v /\ ~ holds self k v) as ->; [|tauto].
          rewrite <- Vo, <- Vs, <- IN. split; intros I; [eapply Permutation_in; [symmetry; exact P'|exact I]|eapply Permutation_in; [exact P'|exact I]]. }
      destruct X1 as (l1 & -> & e1 & P1 & O1 & D1 & K1 & H1). cbn [bind].
      assert (HK1 : has e1 k) by (apply has_keys; rewrite K1; apply has_keys; exact HK).
      assert (X2 : exists l, (match set_diff (s_vals s) (s_vals o) with [] => Ok [] | l => do l' <- sort_to_bytes l; Ok [new_delta MDelete k l'] end) = Ok l /\
                 exists e2, patch_all lower l e1 = (e2, Ok tt) /\ entry_ok kt vt e2 /\ e_dn e2 = e_dn e1 /\ keys_of e2 = keys_of e1 /\
                 forall k' v, holds e2 k' v <-> holds e1 k' v /\ ~ (lowv k' = lowv k /\ holds self k v /\ ~ holds other k v)).
      { pose proof (fun v => In_set_diff v (s_vals s) (s_vals o)) as IN.
        assert (FD : Forall (typed vt) (set_diff (s_vals s) (s_vals o))).
        { apply Forall_forall. intros x X. apply IN in X as (X & _). rewrite Forall_forall in Fs. auto. }
        destruct (set_diff (s_vals s) (s_vals o)) as [|d ds] eqn:SD.
        - exists []. split; [reflexivity|]. exists e1. cbn [patch_all]. split; [reflexivity|]. split; [exact O1|]. split; [reflexivity|]. split; [reflexivity|].
          intros k' v. split; [|tauto]. intros X. split; [exact X|]. intros (_ & Y & W). apply (proj2 (IN v)). rewrite Vo, Vs. auto.
        - destruct (sort_to_bytes_typed vt _ FD) as (l' & S' & P'). rewrite S'. cbn [bind]. eexists. split; [reflexivity|].
          assert (Fl : Forall (typed vt) l') by (rewrite Forall_forall in *; intros x I; apply FD; eapply Permutation_in; [symmetry; exact P'|exact I]).
          assert (IL : forall v, In v l' <-> holds self k v /\ ~ holds other k v).
          { intros v. rewrite <- Vo, <- Vs, <- IN. split; intros I; [eapply Permutation_in; [symmetry; exact P'|exact I]|eapply Permutation_in; [exact P'|exact I]]. }
          destruct (del_vals k l' e1 T Fl O1) as (e2 & P2 & O2 & D2 & K2 & H2).
          { intros ->. apply Permutation_length in P'. discriminate. }
          { exact HK1. }
          { apply Forall_forall. intros v I. apply H1. left. apply A2. apply IL in I. tauto. }
          exists e2. cbn [patch_all]. rewrite P2.
          split; [reflexivity|]. split; [exact O2|]. split; [exact D2|]. split; [exact K2|]. intros k' v. rewrite H2, IL. tauto. }
      destruct X2 as (l2 & -> & e2 & P2 & O2 & D2 & K2 & H2). cbn [bind]. eexists. split; [reflexivity|].
      exists e2. split; [rewrite (patch_all_app _ _ _ _ P1); exact P2|]. split; [exact O2|]. split; [congruence|]. rewrite K2, K1.
      split; [tauto|]. split.
      - intros k' v. rewrite H2, H1. destruct (pyval_eqb_spec (lowv k') (lowv k)) as [E|E].
        + rewrite (holds_ext e _ _ v E), A2.
          assert (Dec : holds self k v \/ ~ holds self k v).
          { rewrite <- Vs. destruct (mem v (s_vals s)) eqn:M; [left; now apply mem_In|right; now apply mem_false]. }
          assert (Dec2 : holds other k v \/ ~ holds other k v).
          { rewrite <- Vo. destruct (mem v (s_vals o)) eqn:M; [left; now apply mem_In|right; now apply mem_false]. }
          tauto.
        + tauto.
      - intros _ x E. split; [|intros ->; now apply A1]. intros I. apply A1 in I; [|exact E].
        eapply one_spelling; [exact Os|exact Is|exact I|exact E].
    Qed.

    Lemma mapR_exists {A C} (f : A -> res C) l : (forall x, In x l -> exists y, f x = Ok y) ->
      exists m, mapR f l = Ok m /\ Forall2 (fun x y => f x = Ok y) l m.
    Proof.
      induction l as [|x l IH]; intros H; [exists []; split; [reflexivity|constructor]|].
      destruct (H x (or_introl eq_refl)) as (y & E). destruct IH as (m & M & F); [intros z I; apply H; now right|].
      exists (y :: m). cbn [mapR]. rewrite E. cbn [bind]. rewrite M. split; [reflexivity|]. now constructor.
    Qed.
    Lemma flat_map_concat {A C} (f : A -> list C) ks ms : Forall2 (fun k m => f k = m) ks ms -> flat_map f ks = concat ms.
    Proof. induction 1 as [|k m ks ms E F IH]; [reflexivity|]. cbn [flat_map concat]. now rewrite E, IH. Qed.
    Lemma flat_map_single {A C} (f : A -> list C) ks ms : Forall2 (fun k m => f k = [m]) ks ms -> flat_map f ks = ms.
    Proof. induction 1 as [|k m ks ms E F IH]; [reflexivity|]. cbn [flat_map]. now rewrite E, IH. Qed.
    Lemma Forall2_In {A C} (P Q : A -> C -> Prop) l m : (forall x y, In x l -> P x y -> Q x y) -> Forall2 P l m -> Forall2 Q l m.
    Proof.
      intros H F. revert H. induction F as [|x y l m Hx F IH]; intros H; constructor.
      - apply H; [now left|exact Hx].
      - apply IH. intros a b I. apply H. now right.
    Qed.

    Lemma In_dec (k : pyval) l : In k l \/ ~ In k l.
    Proof. destruct (mem k l) eqn:M; [left; now apply mem_In|right; now apply mem_false]. Qed.
    Lemma NoDup_app_intro {A} (l m : list A) : NoDup l -> NoDup m -> (forall x, In x l -> In x m -> False) -> NoDup (l ++ m).
    Proof.
      induction 1 as [|x l Nx N IH]; intros M D; [exact M|]. cbn [app]. constructor.
      - rewrite in_app_iff. intros [I|I]; [auto|]. apply (D x); [now left|exact I].
      - apply IH; [exact M|]. intros y I J. apply (D y); [now right|exact J].
    Qed.

    (** The modifications that diff makes for one key. *)
    Definition key_mods (k : pyval) : list delta :=
      if mem k (keys_of self) then
        if mem k (keys_of other) then match diff_shared lower k self other with Ok l => l | Err _ => [] end
        else match dict_get k (e_attrs self) with Some a => [new_delta MDelete k (s_vals a)] | None => [] end
      else match dict_get k (e_attrs other) with Some a => [new_delta MAdd k (s_vals a)] | None => [] end.

    Lemma diff_mods : dn_eqb lower (e_dn self) (e_dn other) = true -> entry_eq lower self other = Ok false ->
      exists ks, diff lower self other = Ok (Some (flat_map key_mods ks)) /\ NoDup (map lowv ks) /\
                 forall k, In k ks <-> In k (keys_of self) \/ In k (keys_of other).
    Proof.
      intros D E. unfold diff. rewrite D, E. cbn [negb bind].
      pose proof (keys_typed _ _ _ Os) as Ts. pose proof (keys_typed _ _ _ Oo) as To.
      pose proof (keys_NoDup _ _ _ Os) as Ns. pose proof (keys_NoDup _ _ _ Oo) as No.
      assert (TF : forall l (f : pyval -> bool), Forall (typed kt) l -> Forall (typed kt) (filter f l)).
      { intros l f F. apply Forall_forall. intros x X. apply filter_In in X as (X & _). rewrite Forall_forall in F. auto. }
      destruct (sort_to_bytes_typed kt _ (TF (keys_of other) (fun x => negb (mem x (keys_of self))) To)) as (ka & Sa & Pa).
      destruct (sort_to_bytes_typed kt _ (TF (keys_of self) (fun x => negb (mem x (keys_of other))) Ts)) as (kd & Sd & Pd).
      destruct (sort_to_bytes_typed kt _ (TF (keys_of self) (fun x => mem x (keys_of other)) Ts)) as (kc & Sc & Pc).
      change (filter _ (keys_of other)) with (set_diff (keys_of other) (keys_of self)) in Sa, Pa.
      change (filter (fun x => negb (mem x (keys_of other))) (keys_of self)) with (set_diff (keys_of self) (keys_of other)) in Sd, Pd.
      change (filter (fun x => mem x (keys_of other)) (keys_of self)) with (set_inter (keys_of self) (keys_of other)) in Sc, Pc.
      assert (Ia : forall k, In k ka <-> In k (keys_of other) /\ ~ In k (keys_of self)).
      { intros k. rewrite <- In_set_diff. split; intros I; (eapply Permutation_in; [|exact I]); [apply Permutation_sym|]; assumption. }
      assert (Id : forall k, In k kd <-> In k (keys_of self) /\ ~ In k (keys_of other)).
      { intros k. rewrite <- In_set_diff. split; intros I; (eapply Permutation_in; [|exact I]); [apply Permutation_sym|]; assumption. }
      assert (Ic : forall k, In k kc <-> In k (keys_of self) /\ In k (keys_of other)).
      { intros k. rewrite <- In_set_inter. split; intros I; (eapply Permutation_in; [|exact I]); [apply Permutation_sym|]; assumption. }
      rewrite Sa. cbn [bind].
      destruct (mapR_exists (fun k => do a <- getitem k other; Ok (new_delta MAdd k (s_vals a))) ka) as (m1 & M1 & F1).
      { intros k I. apply Ia in I as (I & _). destruct (other_key k I) as (T & a & G & _). rewrite (getitem_typed lower kt vt k other T Oo), G. cbn [bind]. eauto. }
      rewrite M1. cbn [bind]. rewrite Sd. cbn [bind].
      destruct (mapR_exists (fun k => do a <- getitem k self; Ok (new_delta MDelete k (s_vals a))) kd) as (m2 & M2 & F2).
      { intros k I. apply Id in I as (I & _). destruct (self_key k I) as (T & a & G & _). rewrite (getitem_typed lower kt vt k self T Os), G. cbn [bind]. eauto. }
      rewrite M2. cbn [bind]. rewrite Sc. cbn [bind].
      destruct (mapR_exists (fun k => diff_shared lower k self other) kc) as (m3 & M3 & F3).
      { intros k I. apply Ic in I as (I & J). destruct (diff_shared_done k self I J Os) as (ms & X & _); [split; tauto|]. eauto. }
      rewrite M3. cbn [bind]. exists (ka ++ kd ++ kc). split; [|split].
      - do 2 f_equal. rewrite !flat_map_app. f_equal; [|f_equal].
        + symmetry. apply flat_map_single. eapply Forall2_In; [|exact F1]. intros k m I H. apply Ia in I as (I & J).
          cbv beta in H. unfold key_mods. rewrite (proj2 (mem_false _ _) J). destruct (other_key k I) as (T & a & G & _).
          rewrite (getitem_typed lower kt vt k other T Oo), G in H. cbn [bind] in H. apply Ok_inj in H. now rewrite G, H.
        + symmetry. apply flat_map_single. eapply Forall2_In; [|exact F2]. intros k m I H. apply Id in I as (I & J).
          cbv beta in H. unfold key_mods. rewrite (proj2 (mem_false _ _) J), (proj2 (mem_In _ _) I). destruct (self_key k I) as (T & a & G & _).
          rewrite (getitem_typed lower kt vt k self T Os), G in H. cbn [bind] in H. apply Ok_inj in H. now rewrite G, H.
        + symmetry. apply flat_map_concat. eapply Forall2_In; [|exact F3]. intros k m I H. apply Ic in I as (I & J).
          cbv beta in H. unfold key_mods. now rewrite (proj2 (mem_In _ _) I), (proj2 (mem_In _ _) J), H.
      - assert (ND : NoDup (ka ++ kd ++ kc)).
        { assert (Na : NoDup ka) by (eapply Permutation_NoDup; [exact Pa|now apply NoDup_filter]).
          assert (Nd : NoDup kd) by (eapply Permutation_NoDup; [exact Pd|now apply NoDup_filter]).
          assert (Nc : NoDup kc) by (eapply Permutation_NoDup; [exact Pc|now apply NoDup_filter]).
          apply NoDup_app_intro; [exact Na|apply NoDup_app_intro; [exact Nd|exact Nc|]|].
          - intros k I J. apply Id in I. apply Ic in J. tauto.
          - intros k I J. apply Ia in I. apply in_app_or in J as [J|J]; [apply Id in J|apply Ic in J]; tauto. }
        assert (INJ : forall x y, In x (ka ++ kd ++ kc) -> In y (ka ++ kd ++ kc) -> lowv x = lowv y -> x = y).
        { assert (KK : forall x, In x (ka ++ kd ++ kc) -> In x (keys_of self) \/ In x (keys_of other)).
          { intros x I. rewrite !in_app_iff, Ia, Id, Ic in I. tauto. }
          intros x y I J Exy. apply KK in I, J. destruct I as [I|I], J as [J|J].
          - eapply one_spelling; [exact Os|exact J|exact I|exact Exy].
          - now apply spelled.
          - symmetry. now apply spelled.
          - eapply one_spelling; [exact Oo|exact J|exact I|exact Exy]. }
        clear -ND INJ. induction (ka ++ kd ++ kc) as [|x l IH]; [constructor|]. cbn [map]. inversion ND; subst. constructor.
        + intros I. apply in_map_iff in I as (y & Ey & I). assert (y = x) as -> by (apply INJ; [now right|now left|exact Ey]). auto.
        + apply IH; [assumption|]. intros a b I J. apply INJ; now right.
      - intros k. rewrite !in_app_iff, Ia, Id, Ic.
        destruct (In_dec k (keys_of self)), (In_dec k (keys_of other)); tauto.
    Qed.

    Lemma key_mods_done k e : In k (keys_of self) \/ In k (keys_of other) -> entry_ok kt vt e -> agrees self e k ->
      key_done kt vt other k (key_mods k) e.
    Proof.
      intros I O A. unfold key_mods. destruct (mem k (keys_of self)) eqn:Ms, (mem k (keys_of other)) eqn:Mo;
        first [apply mem_In in Ms | apply mem_false in Ms]; first [apply mem_In in Mo | apply mem_false in Mo].
      - destruct (diff_shared_done k e Ms Mo O A) as (ms & -> & H). exact H.
      - destruct (self_key k Ms) as (T & a & G & _). rewrite G. now apply done_deleted.
      - destruct (other_key k Mo) as (T & a & G & _). rewrite G. now apply done_added.
      - tauto.
    Qed.

    Lemma diff_patch : dn_eqb lower (e_dn self) (e_dn other) = true ->
      (exists e, diff lower self other = Ok None /\ entry_eq lower self other = Ok true /\ e = self) \/
      (exists ms e', diff lower self other = Ok (Some ms) /\ entry_eq lower self other = Ok false /\
         patch_all lower ms self = (e', Ok tt) /\ entry_ok kt vt e' /\ e_dn e' = e_dn self /\
         (forall k v, holds e' k v <-> holds other k v) /\ (forall k, In k (keys_of other) -> In k (keys_of e')) /\
         ((forall k, In k (keys_of self) -> In k (keys_of other)) -> entry_eq lower e' other = Ok true)).
    Proof.
      intros D. destruct (entry_eq_spec kt vt self other Os Oo) as (r & R & _). destruct r.
      - left. exists self. unfold diff. rewrite D, R. auto.
      - right. destruct (diff_mods D R) as (ks & DF & N & IK).
        destruct (keys_done kt vt self other key_mods ks self) as (e' & P & O' & Dn & K & V & S0).
        + intros k e I. apply key_mods_done, IK, I.
        + exact N.
        + exact Os.
        + apply Forall_forall. intros k _. split; tauto.
        + exists (flat_map key_mods ks), e'. split; [exact DF|]. split; [exact R|]. split; [exact P|]. split; [exact O'|]. split; [exact Dn|].
          assert (HV : forall k v, holds e' k v <-> holds other k v).
          { intros k v. rewrite V.
            assert (Dec : In (lowv k) (map lowv ks) \/ ~ In (lowv k) (map lowv ks)).
            { destruct (mem (lowv k) (map lowv ks)) eqn:M; [left; now apply mem_In|right; now apply mem_false]. }
            destruct Dec as [X|X]; [tauto|]. split; [|intros H; exfalso].
            - intros [|(_ & H)]; [tauto|]. exfalso. apply X. destruct H as (a & I & Ea & _). rewrite <- Ea. apply in_map, IK. left. now apply in_map.
            - apply X. destruct H as (a & I & Ea & _). rewrite <- Ea. apply in_map, IK. right. now apply in_map. }
          assert (HK : forall k, In k (keys_of other) -> In k (keys_of e')).
          { intros k I. apply (S0 k (proj2 (IK k) (or_intror I)) I k eq_refl). reflexivity. }
          split; [exact HV|]. split; [exact HK|]. intros Incl.
          destruct (entry_eq_spec kt vt e' other O' Oo) as (r & R' & H). rewrite R'. f_equal. apply H.
          split; [rewrite Dn; exact D|]. split; [|exact HV]. intros k. split; [|apply HK]. intros I.
          destruct (mem (lowv k) (map lowv ks)) eqn:M.
          * apply mem_In, in_map_iff in M as (x & Ex & Ix). assert (Io : In x (keys_of other)) by (apply IK in Ix as [Ix|Ix]; auto).
            assert (k = x) as -> by (apply (S0 x Ix Io k); auto). exact Io.
          * apply mem_false in M. apply K in I; [|exact M]. exfalso. apply M, in_map, IK. auto.
    Qed.
  End Two.
End Diff.
