(** Proofs about ldifdiff and ldifpatch: modifications that are read back, and what a difference
    is made of (C98). *)
From Coq Require Import Permutation.
From Verif Require Import Base BaseFacts Utf8Model Utf8Proofs DnModel DnSpec DnProofs EntryModel EntrySpec EntryProofs SortFacts DiffProofs DeltaSpec LdapSpec
  LdifSpec LdifRound InmemModel InmemSpec LoadSpec ServerModel ServerSearch SyntaxSpec SyntaxProofs TreeDiffModel TreeDiffSpec DiffToolSpec.

(** ** Modifications with the same values in another order *)
Section Sets.
  Variable lower : str -> str.
  Notation lowv := (lowv lower).
  Notation modifies := (modifies lower).
  Notation represents := (represents lower).
  Definition vsame (m m' : delta) : Prop :=
    d_kind m' = d_kind m /\ d_key m' = d_key m /\ forall v, In v (d_vals m') <-> In v (d_vals m).
  Definition oeq (x y : option (pyval -> Prop)) : Prop :=
    match x, y with Some P, Some Q => forall v, P v <-> Q v | None, None => True | _, _ => False end.
  Definition amap_eq (A A' : amap) : Prop := forall k, oeq (A k) (A' k).

  Lemma amap_refl A : amap_eq A A.
  Proof. intros k. unfold oeq. destruct (A k); tauto. Qed.
  Lemma represents_eq e A A' : represents e A -> amap_eq A A' -> represents e A'.
  Proof.
    intros R E k. specialize (R k). specialize (E (lowv k)). unfold oeq in E. destruct (A (lowv k)), (A' (lowv k)); try tauto.
    destruct R as (H & V). split; [exact H|]. intros v. rewrite <- E. apply V.
  Qed.
  Lemma upd_eq A k x y : oeq x y ->
    amap_eq (upd lower A k x) (upd lower A k y).
  Proof.
    intros H k'. unfold upd. destruct (pyval_eqb (lowv k) k'); [exact H|]. apply amap_refl.
  Qed.
  Lemma empty_same (vs vs' : list pyval) : (forall v, In v vs' <-> In v vs) -> vs = [] -> vs' = [].
  Proof. intros H ->. destruct vs' as [|v vs']; [reflexivity|]. exfalso. apply (H v). now left. Qed.

  Lemma modifies_same m m' A A1 r : vsame m m' -> modifies m A (Some A1) -> modifies m' A r -> exists A2, r = Some A2 /\ amap_eq A1 A2.
  Proof.
    destruct m as [kd k vs], m' as [kd' k' vs']. intros (Ek & Eq & V) M M'. cbn [d_kind d_key d_vals] in *. subst kd' k'.
    inversion M; subst; inversion M'; subst; try (eexists; split; [reflexivity|]).
    - apply upd_eq. cbn [oeq]. intros v. rewrite V. tauto.
    - apply amap_refl.
    - exfalso. match goal with H : ?l <> [] |- _ => apply H; apply (empty_same [] l V eq_refl) end.
    - congruence.
    - exfalso. match goal with H : ~ Forall _ ?l |- _ => apply H; rewrite (empty_same [] l V eq_refl); constructor end.
    - exfalso. match goal with H : ?l <> [] |- _ => apply H; apply (empty_same [] l); [intros v; now rewrite V|reflexivity] end.
    - apply upd_eq. cbn [oeq]. intros v. rewrite V. match goal with H1 : A ?l = Some ?P, H2 : A ?l = Some ?Q |- _ => rewrite H1 in H2; injection H2 as -> end. tauto.
    - congruence.
    - exfalso. match goal with H1 : A ?l = Some ?P, H2 : A ?l = Some ?Q |- _ => rewrite H1 in H2; injection H2 as -> end.
      match goal with H : ~ Forall _ ?l |- _ => apply H end. rewrite Forall_forall in *. intros v J. apply V in J. auto.
    - apply upd_eq. cbn [oeq]. intros v. now rewrite V.
    - exfalso. match goal with H : ?l <> [] |- _ => apply H; apply (empty_same [] l); [intros v; now rewrite V|reflexivity] end.
    - exfalso. match goal with H : ?l <> [] |- _ => apply H; apply (empty_same [] l V eq_refl) end.
    - apply amap_refl.
  Qed.

  Lemma patch_same kt vt ms ms' : Forall2 vsame ms ms' -> Forall (delta_ok kt vt) ms -> Forall (delta_ok kt vt) ms' ->
    forall e f A, entry_ok lower kt vt e -> entry_ok lower kt vt f -> represents e A -> represents f A ->
    forall e1, patch_all lower ms e = (e1, Ok tt) ->
    exists f1 A1, patch_all lower ms' f = (f1, Ok tt) /\ e_dn f1 = e_dn f /\ entry_ok lower kt vt f1 /\ represents e1 A1 /\ represents f1 A1.
  Proof.
    induction 1 as [|m m' ms ms' V F2 IH]; intros D D' e f A Oe Of Re Rf e1 P; cbn [patch_all] in *.
    - injection P as <-. exists f, A. auto.
    - destruct (patch1_spec lower kt vt m e A Oe (Forall_inv D) Re) as (x & r & Px & Ox & Dx & Zx). rewrite Px in P.
      destruct Zx as [(-> & Ax & Mx & Rx)|(-> & _)]; [|discriminate].
      destruct (patch1_spec lower kt vt m' f A Of (Forall_inv D') Rf) as (y & r & Py & Oy & Dy & Zy). rewrite Py.
      destruct Zy as [(-> & Ay & My & Ry)|(-> & My)].
      + destruct (modifies_same m m' A Ax _ V Mx My) as (A2 & Q & E). injection Q as <-.
        destruct (IH (Forall_inv_tail D) (Forall_inv_tail D') x y Ay Ox Oy (represents_eq _ _ _ Rx E) Ry e1 P) as (f1 & A1 & P1 & D1 & O1 & R1 & R2).
        exists f1, A1. split; [exact P1|]. split; [congruence|]. auto.
      + destruct (modifies_same m m' A Ax _ V Mx My) as (A2 & Q & E). discriminate.
  Qed.

  (** The attributes afterwards are attributes that were there or that a modification names. *)
  Lemma modifies_dom ms : forall A A1, modifies_all lower ms A (Some A1) -> forall k, A1 k <> None -> A k <> None \/ exists m, In m ms /\ lowv (d_key m) = k.
  Proof.
    induction ms as [|m ms IH]; intros A A1 M k N; inversion M as [|? ? ? M1|? ? ? A' ? M1 M2]; subst; [now left|].
    destruct (IH _ _ M2 k N) as [X|(m' & J & E)]; [|right; exists m'; split; [now right|exact E]].
    destruct (pyval_eqb_spec (lowv (d_key m)) k) as [E|E]; [right; exists m; split; [now left|exact E]|left].
    assert (U : forall x, upd lower A (d_key m) x k = A k).
    { intros x. unfold upd. destruct (pyval_eqb_spec (lowv (d_key m)) k); [congruence|reflexivity]. }
    inversion M1; subst; cbn [d_key] in *; now rewrite U in X.
  Qed.
  Lemma patch_has kt vt ms e e1 k : entry_ok lower kt vt e -> Forall (delta_ok kt vt) ms -> patch_all lower ms e = (e1, Ok tt) ->
    has lower e1 k -> has lower e k \/ exists m, In m ms /\ lowv (d_key m) = lowv k.
  Proof.
    intros O D P H. destruct (represents_some lower e) as (A & R). destruct (patch_all_spec lower kt vt ms e A O D R) as (x & r & Px & Ox & Dx & Z).
    rewrite P in Px. injection Px as <- <-. destruct Z as [(_ & A1 & M & R1)|(Q & _)]; [|discriminate].
    assert (N : A1 (lowv k) <> None) by (specialize (R1 k); destruct (A1 (lowv k)); [discriminate|tauto]).
    destruct (modifies_dom ms A A1 M _ N) as [X|X]; [left|now right]. specialize (R k). destruct (A (lowv k)); tauto.
  Qed.
End Sets.

(** ** What a difference is made of *)
Section Made.
  Variable lower : str -> str.
  Variables (kt vt : bool) (self other : entry).
  Hypothesis Os : entry_ok lower kt vt self.
  Hypothesis Oo : entry_ok lower kt vt other.
  Definition from_one (m : delta) : Prop :=
    exists e, (e = self \/ e = other) /\ In (d_key m) (keys_of e) /\ NoDup (d_vals m) /\
      forall v, In v (d_vals m) -> exists x a, (x = self \/ x = other) /\ In a (e_attrs x) /\ In v (s_vals a).

  Lemma get_in e k a : entry_ok lower kt vt e -> In k (keys_of e) -> getitem lower k e = Ok a -> In a (e_attrs e) /\ NoDup (s_vals a) /\ Forall (typed vt) (s_vals a).
  Proof.
    intros O I G. pose proof (keys_typed lower kt vt e O) as T. rewrite Forall_forall in T. rewrite (getitem_typed lower kt vt k e (T k I) O) in G.
    destruct (dict_get lower k (e_attrs e)) as [a'|] eqn:Q; [|discriminate]. cbn in G. apply Ok_inj in G. subst a'.
    apply dict_get_some in Q as (J & _). destruct O as (F & _). rewrite Forall_forall in F. destruct (F a J) as (_ & X & Y). auto.
  Qed.
  Lemma sorted_in l l' : Forall (typed kt) l -> sort_to_bytes l = Ok l' -> forall k, In k l' <-> In k l.
  Proof.
    intros T S k. destruct (sort_to_bytes_typed kt l T) as (l2 & S2 & P). rewrite S in S2. apply Ok_inj in S2. subst. now apply perm_In.
  Qed.
  Lemma filter_typed f e : entry_ok lower kt vt e -> Forall (typed kt) (List.filter f (keys_of e)).
  Proof.
    intros O. pose proof (keys_typed lower kt vt e O) as T. rewrite Forall_forall in *. intros k J. apply filter_In in J as (J & _). auto.
  Qed.
  Lemma diff_made ms : diff lower self other = Ok (Some ms) -> Forall from_one ms.
  Proof.
    intros H. unfold diff in H. destruct (dn_eqb lower (e_dn self) (e_dn other)); [|discriminate]. cbn [negb] in H.
    apply bind_ok in H as (q & _ & H). destruct q; [discriminate|].
    apply bind_ok in H as (added & Ha & H). apply bind_ok in H as (r1 & H1 & H). apply bind_ok in H as (deleted & Hd & H).
    apply bind_ok in H as (r2 & H2 & H). apply bind_ok in H as (shared & Hs & H). apply bind_ok in H as (r3 & H3 & H).
    apply Ok_inj in H. injection H as <-. apply mapR_F2 in H1, H2, H3.
    pose proof (sorted_in _ _ (filter_typed _ other Oo) Ha) as Ia. pose proof (sorted_in _ _ (filter_typed _ self Os) Hd) as Id.
    pose proof (sorted_in _ _ (filter_typed _ self Os) Hs) as Is.
    assert (SO : forall e k a kd vs, (e = self \/ e = other) -> In k (keys_of e) -> (forall v, In v vs -> exists x a, (x = self \/ x = other) /\ In a (e_attrs x) /\ In v (s_vals a)) ->
      a = new_delta kd k vs -> from_one a).
    { intros e k a kd vs E I V ->. exists e. unfold new_delta. cbn [d_key d_vals]. split; [exact E|]. split; [exact I|]. split; [apply NoDup_set_of|].
      intros v J. apply (proj1 (In_set_of _ _)) in J. auto. }
    repeat (apply Forall_app; split).
    - apply Forall_forall. intros m J. destruct (F2_In_r _ _ _ _ H1 J) as (k & Jk & E). apply Ia, filter_In in Jk as (Jk & _).
      apply bind_ok in E as (a & G & E). apply Ok_inj in E. symmetry in E. destruct (get_in other k a Oo Jk G) as (Ja & _).
      apply (SO other k m MAdd (s_vals a)); auto. intros v Jv. exists other, a. auto.
    - apply Forall_forall. intros m J. destruct (F2_In_r _ _ _ _ H2 J) as (k & Jk & E). apply Id, filter_In in Jk as (Jk & _).
      apply bind_ok in E as (a & G & E). apply Ok_inj in E. symmetry in E. destruct (get_in self k a Os Jk G) as (Ja & _).
      apply (SO self k m MDelete (s_vals a)); auto. intros v Jv. exists self, a. auto.
    - apply Forall_forall. intros m J. apply in_concat in J as (l & Jl & J). destruct (F2_In_r _ _ _ _ H3 Jl) as (k & Jk & E).
      apply Is, filter_In in Jk as (Jk & Jo). apply mem_In in Jo. unfold diff_shared in E.
      apply bind_ok in E as (o & Go & E). apply bind_ok in E as (s & Gs & E). apply bind_ok in E as (x & Ex & E). apply bind_ok in E as (y & Ey & E). apply Ok_inj in E. subst l.
      destruct (get_in other k o Oo Jo Go) as (Io & _ & To). destruct (get_in self k s Os Jk Gs) as (Is' & _ & Ts).
      assert (SD : forall u w l kd z, Forall (typed vt) u -> (forall v, In v u -> exists x a, (x = self \/ x = other) /\ In a (e_attrs x) /\ In v (s_vals a)) ->
        match set_diff u w with [] => Ok [] | l => do l' <- sort_to_bytes l; Ok [new_delta kd k l'] end = Ok l -> In z l -> from_one z).
      { intros u w l kd z Tu Vu E Jz. destruct (set_diff u w) as [|v0 l0] eqn:SDQ; [apply Ok_inj in E; subst l; destruct Jz|].
        apply bind_ok in E as (l' & S & E). apply Ok_inj in E. subst l. destruct Jz as [<-|[]]. apply (SO self k _ kd l'); auto.
        intros v Jv. apply Vu. destruct (sort_to_bytes_typed vt (v0 :: l0)) as (l2 & S2 & P).
        { rewrite <- SDQ. rewrite Forall_forall in *. intros x0 J0. apply Tu. unfold set_diff in J0. apply filter_In in J0. tauto. }
        rewrite S in S2. apply Ok_inj in S2. subst l2. apply (perm_In _ _ v P) in Jv. rewrite <- SDQ in Jv. unfold set_diff in Jv. apply filter_In in Jv. tauto. }
      apply in_app_or in J as [J|J].
      + eapply SD; [exact To| |exact Ex|exact J]. intros v Jv. exists other, o. auto.
      + eapply SD; [exact Ts| |exact Ey|exact J]. intros v Jv. exists self, s. auto.
  Qed.
End Made.
