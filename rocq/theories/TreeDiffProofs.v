(** Tree differences: what applying them does, region by region (C23). *)
From Coq Require Import Permutation.
From Verif Require Import Base BaseFacts Utf8Model DnModel DnSpec DnProofs EntryModel EntrySpec EntryProofs SortFacts DiffProofs LdapSpec MatchModel LdifRound InmemModel InmemSpec InmemProofs InmemHist ServerModel ServerSearch SyntaxSpec SyntaxProofs TreeDiffModel TreeDiffSpec TreeDiffSteps.

Section Regions.
  Variable lower : str -> str.
  Variable oc_first : bool.
  Variable depth : nat.
  Variable C : rdn -> Prop.
  Hypothesis CC : consistent lower C.
  Hypothesis CI : forall a b, C a -> C b -> rdn_eqb lower a b = true -> a = b.
  Variable rt : dn.
  (** When the patched entry counts as the target. *)
  Variable like : entry -> entry -> Prop.
  (** What becomes of an operation before it is applied. *)
  Variable tr : top -> top.
  Notation same := (same_dn lower).
  Notation intree := (in_tree lower).
  Notation inv := (inv C rt).
  Notation patch_op := (patch_op lower oc_first depth 0%nat).
  Notation patch_ops := (patch_ops lower oc_first depth 0%nat).

  Definition done (ops : list top) (h h' : heap) : Prop := exists os, patch_ops (map tr ops) h = (h', os) /\ Forall (eq (Ok tt)) os.
  Lemma done_nil h : done [] h h.
  Proof. exists []. split; [reflexivity|constructor]. Qed.
  Lemma done_cons op ops h h1 h2 : patch_op (tr op) h = (h1, Ok tt) -> done ops h1 h2 -> done (op :: ops) h h2.
  Proof. intros E (os & P & F). exists (Ok tt :: os). cbn [map TreeDiffModel.patch_ops]. rewrite E, P. split; [reflexivity|]. constructor; auto. Qed.
  Lemma done_app o1 o2 h h1 h2 : done o1 h h1 -> done o2 h1 h2 -> done (o1 ++ o2) h h2.
  Proof.
    revert h. induction o1 as [|op o1 IH]; intros h (os & P & F) D2; cbn [map TreeDiffModel.patch_ops app] in *.
    - injection P as <- <-. exact D2.
    - destruct (patch_op (tr op) h) as (hx & o) eqn:E. destruct (patch_ops (map tr o1) hx) as (hy & os') eqn:E'. injection P as <- <-.
      apply Forall_cons_iff in F as (<- & F). eapply done_cons; [exact E|]. apply IH; [exists os'; auto|exact D2].
  Qed.

  Definition present (h : heap) (L : list ref) (D : dn) : Prop := exists pe, ents h L pe /\ same (e_dn pe) D.
  (** Applying [ops] changes the tree in the region of [d] only, from [A] to something like [B0]. *)
  Definition xform (ops : list top) (d : dn) (A B0 : entry -> Prop) : Prop := forall h L, inv h L ->
    (~ same rt d -> present h L (dn_up d)) ->
    (forall e, intree d (e_dn e) -> (ents h L e <-> A e)) ->
    exists h' L', done ops h h' /\ inv h' L' /\
      (forall e, ~ intree d (e_dn e) -> (ents h' L' e <-> ents h L e)) /\
      (forall e, intree d (e_dn e) -> ents h' L' e -> exists eb, B0 eb /\ like e eb) /\
      (forall eb, B0 eb -> exists e, intree d (e_dn e) /\ ents h' L' e /\ like e eb).

  Record item := mkItem { x_ops : list top; x_rd : rdn; x_up : dn; x_A : entry -> Prop; x_B : entry -> Prop }.
  Definition x_dn (x : item) : dn := x_rd x :: x_up x.

  Lemma in_some (l : list item) d : (exists x, In x l /\ intree (x_dn x) d) \/ (forall x, In x l -> ~ intree (x_dn x) d).
  Proof.
    destruct (existsb (fun x => contains lower (x_dn x) d) l) eqn:E.
    - left. apply existsb_exists in E as (x & J & E). exists x. split; [exact J|]. now apply contains_spec.
    - right. intros x J Hx. apply contains_spec in Hx. assert (X : existsb (fun x => contains lower (x_dn x) d) l = true) by (apply existsb_exists; eauto). congruence.
  Qed.

  Lemma xforms D (l : list item) : Forall (fun x => xform (x_ops x) (x_dn x) (x_A x) (x_B x) /\ C (x_rd x) /\ same (x_up x) D) l ->
    NoDup (map x_rd l) -> forall h L, inv h L -> present h L D ->
    (forall x, In x l -> forall e, intree (x_dn x) (e_dn e) -> (ents h L e <-> x_A x e)) ->
    exists h' L', done (concat (map x_ops l)) h h' /\ inv h' L' /\
      (forall e, (forall x, In x l -> ~ intree (x_dn x) (e_dn e)) -> (ents h' L' e <-> ents h L e)) /\
      (forall x, In x l -> forall e, intree (x_dn x) (e_dn e) -> ents h' L' e -> exists eb, x_B x eb /\ like e eb) /\
      (forall x, In x l -> forall eb, x_B x eb -> exists e, intree (x_dn x) (e_dn e) /\ ents h' L' e /\ like e eb).
  Proof.
    induction l as [|x l IH]; intros F ND h L I P HA.
    { exists h, L. split; [apply done_nil|]. split; [exact I|]. split; [tauto|]. split; intros x []. }
    apply Forall_cons_iff in F as ((X & Cx & Sx) & F). cbn [map] in ND. apply NoDup_cons_iff in ND as (NX & ND).
    assert (APART : forall y e, In y l -> intree (x_dn x) (e_dn e) -> ~ intree (x_dn y) (e_dn e)).
    { intros y e J H1 H2. rewrite Forall_forall in F. destruct (F y J) as (_ & Cy & Sy).
      assert (S : same (x_dn x) (x_dn y)).
      { apply (intree_same_len lower _ _ (e_dn e)); auto. unfold x_dn. cbn [length]. f_equal. apply same_len in Sx. apply same_len in Sy. congruence. }
      apply same_cons in S as (S & _). apply (CI _ _ Cx Cy) in S. apply NX. rewrite S. now apply in_map. }
    destruct (X h L I) as (h1 & L1 & D1 & I1 & OUT1 & IN1 & COV1).
    { intros _. unfold dn_up, x_dn. cbn [tl]. destruct P as (pe & Pe & Sp). exists pe. split; [exact Pe|]. eapply same_trans; [exact Sp|now apply same_sym]. }
    { intros e Ie. apply (HA x (or_introl eq_refl) e Ie). }
    assert (P1 : present h1 L1 D).
    { destruct P as (pe & Pe & Sp). exists pe. split; [|exact Sp]. apply OUT1; [|exact Pe]. intros Hx. apply intree_len in Hx.
      apply same_len in Sp. apply same_len in Sx. unfold x_dn in Hx. cbn [length] in Hx. lia. }
    destruct (IH F ND h1 L1 I1 P1) as (h2 & L2 & D2 & I2 & OUT2 & IN2 & COV2).
    { intros y J e Ie. rewrite OUT1; [apply HA; [now right|exact Ie]|]. intros Hx. exact (APART y e J Hx Ie). }
    exists h2, L2. split; [cbn [map concat]; eapply done_app; eauto|]. split; [exact I2|].
    assert (KEEP : forall e, intree (x_dn x) (e_dn e) -> (ents h2 L2 e <-> ents h1 L1 e)).
    { intros e Ie. apply OUT2. intros y J. exact (APART y e J Ie). }
    split; [|split].
    - intros e NI. rewrite OUT2 by (intros y J; apply NI; now right). apply OUT1. apply NI. now left.
    - intros y [<-|J] e Ie Ee; [apply IN1; [exact Ie|]; now apply KEEP|]. eapply IN2; eauto.
    - intros y [<-|J] eb Eb; [|eapply COV2; eauto]. destruct (COV1 eb Eb) as (e & Ie & Ee & Lk). exists e. split; [exact Ie|]. split; [now apply KEEP|exact Lk].
  Qed.
End Regions.

Lemma combine_maps {A B0} (l : list A) : forall (m : list B0), length l = length m -> map fst (combine l m) = l /\ map snd (combine l m) = m.
Proof. induction l as [|x l IH]; intros [|y m] E; cbn in *; try discriminate; [auto|]. injection E as E. destruct (IH m E) as (-> & ->). auto. Qed.
Lemma rdn_dec (a b : rdn) : {a = b} + {a <> b}.
Proof. repeat decide equality. Qed.

(** ** The order in which subtree() visits *)
Section Pre.
  Variables (h : heap) (L : list ref).
  Hypothesis T : tree h L.
  Fixpoint pre (n : nat) (r : ref) : list ref :=
    match n with O => [] | S n' => r :: flat_map (pre n') (rev (kids h r)) end.
  Lemma collect n : forall r s, In r L -> (forall c, below h r c -> (dlen h c - dlen h r < n)%nat) ->
    subtree (fun c s => (s ++ [c], None)) n h r s = (s ++ pre n r, None).
  Proof.
    induction n as [|n IH]; intros r s Ir Dp; [specialize (Dp r (below_refl h r)); lia|].
    cbn [subtree pre]. destruct (t_node h L T r Ir) as (nd & N). rewrite N.
    assert (KD : kids h r = map snd (n_children nd)) by (unfold kids; now rewrite N). rewrite KD.
    f_equal.
    assert (G : forall cs s0, (forall x, In x (map snd cs) -> In x (kids h r)) ->
      (fix pop (cs : list (str * ref)) (s : list ref) {struct cs} : list ref :=
         match cs with
         | [] => s
         | (_, c) :: rest => match subtree (fun c0 s2 => (s2 ++ [c0], None)) n h c s with (s1, None) => pop rest s1 | (s1, Some _) => s1 end
         end) cs s0 = s0 ++ flat_map (pre n) (map snd cs)).
    { induction cs as [|(k & c) cs IHc]; intros s0 Sub; cbn [map flat_map snd]; [now rewrite app_nil_r|].
      assert (Kc : In c (kids h r)) by (apply Sub; now left). rewrite IH.
      - rewrite IHc by (intros x J; apply Sub; now right). now rewrite <- app_assoc.
      - exact (t_kids h L T r c Ir Kc).
      - intros x Bx. pose proof (dlen_kid h L T r c Ir Kc). assert (below h r x) by (econstructor; eauto). specialize (Dp x H0). pose proof (dlen_below h L T c x (t_kids h L T r c Ir Kc) Bx). lia. }
    rewrite G; [|intros x J; rewrite KD; rewrite map_rev in J; now apply in_rev in J]. rewrite map_rev. rewrite <- app_assoc. reflexivity.
  Qed.
  Lemma pre_in n : forall r c, In r L -> In c (pre n r) -> In c L.
  Proof.
    induction n as [|n IH]; intros r c Ir J; [destruct J|]. cbn [pre] in J. destruct J as [<-|J]; [exact Ir|].
    apply in_flat_map in J as (k & K & J). apply in_rev in K. eapply IH; [|exact J]. exact (t_kids h L T r k Ir K).
  Qed.
End Pre.

Section Diff.
  Variable lower : str -> str.
  Variable oc_first : bool.
  Variable hash_pair : str * str -> Z.
  Variable hash_tuple : list Z -> Z.
  Variable depth : nat.
  Variable C : rdn -> Prop.
  Hypothesis CC : consistent lower C.
  Hypothesis CI : forall a b, C a -> C b -> rdn_eqb lower a b = true -> a = b.
  Variables rt rtB : dn.
  Variable like : entry -> entry -> Prop.
  Variable tr : top -> top.
  Notation same := (same_dn lower).
  Notation intree := (in_tree lower).
  Notation xform := (xform lower oc_first depth C rt like tr).
  Notation done := (done lower oc_first depth tr).
  Notation present := (present lower).
  Variables (hA hB : heap) (LA LB : list ref).
  Hypothesis IA : inv C rt hA LA.
  Hypothesis IB : inv C rtB hB LB.
  Hypothesis SA : forall r, In r LA -> (length (dn_at hA r) < depth)%nat.
  Hypothesis SB : forall r, In r LB -> (length (dn_at hB r) < depth)%nat.
  Hypothesis LK_copy : forall eb d, ents hB LB eb -> same d (e_dn eb) ->
    exists eb' its, tr (TAdd eb) = TAdd eb' /\ e_dn eb' = e_dn eb /\ items lower oc_first eb' = Ok its /\ like (new_entry lower d its) eb.
  Hypothesis LK_del : forall ea, ents hA LA ea -> tr (TDelete (e_dn ea)) = TDelete (e_dn ea).
  Hypothesis LK_diff : forall ea eb, ents hA LA ea -> ents hB LB eb -> same (e_dn ea) (e_dn eb) ->
    (diff lower ea eb = Ok None /\ like ea eb) \/
    exists ms ms' e', diff lower ea eb = Ok (Some ms) /\ tr (TModify (e_dn ea) ms) = TModify (e_dn ea) ms' /\
      patch_all lower ms' ea = (e', Ok tt) /\ e_dn e' = e_dn ea /\ like e' eb.
  Let TA := i_tree C rt hA LA IA.
  Let TB := i_tree C rtB hB LB IB.

  Lemma rdn_refl r : rdn_eqb lower r r = true.
  Proof. apply (proj1 (same_cons lower r [] r [])). apply same_refl. Qed.
  (** The region of an entry of a tree: the entry and the regions of its children. *)
  Lemma split_region rt0 h L : inv C rt0 h L -> forall x e, In x L -> ents h L e -> intree (dn_at h x) (e_dn e) ->
    e = ent_at h x \/ exists k, In k (kids h x) /\ intree (dn_at h k) (e_dn e).
  Proof.
    intros I x e Ix (c & Ic & <-) Hx. rewrite dn_at_ent in *.
    destruct (ancestor lower h L (i_tree C rt0 h L I) (siblings lower C CC rt0 h L I) x c Ix Ic Hx) as [->|(k & K & Hk)]; [now left|]. right. eauto.
  Qed.
  Lemma kid_facts rt0 h L : inv C rt0 h L -> forall x k, In x L -> In k (kids h x) ->
    In k L /\ exists rd, dn_at h k = rd :: dn_at h x /\ C rd.
  Proof.
    intros I x k Ix K. split; [exact (t_kids h L (i_tree C rt0 h L I) x k Ix K)|]. destruct (dn_at_kid C rt0 h L I x k Ix K) as (rd & E & Cr & _). eauto.
  Qed.
  Definition rdn_at (h : heap) (c : ref) : rdn := hd [] (dn_at h c).
  Lemma kid_dn_at rt0 h L : inv C rt0 h L -> forall x k, In x L -> In k (kids h x) -> dn_at h k = rdn_at h k :: dn_at h x /\ C (rdn_at h k).
  Proof. intros I x k Ix K. destruct (kid_facts rt0 h L I x k Ix K) as (_ & rd & E & Cr). unfold rdn_at. rewrite E. auto. Qed.
  Lemma kids_rdn_nodup rt0 h L : inv C rt0 h L -> forall x, In x L -> NoDup (map (rdn_at h) (kids h x)).
  Proof.
    intros I x Ix. assert (G : forall l, (forall k, In k l -> In k (kids h x)) -> NoDup l -> NoDup (map (rdn_at h) l)).
    { induction l as [|k l IH]; intros Sub ND; cbn [map]; [constructor|]. apply NoDup_cons_iff in ND as (NK & ND). constructor; [|apply IH; auto; intros y J; apply Sub; now right].
      intros J. apply in_map_iff in J as (y & E & J). apply NK.
      assert (Ky : In y (kids h x)) by (apply Sub; now right). assert (Kk : In k (kids h x)) by (apply Sub; now left).
      replace k with y; [exact J|]. apply (siblings lower C CC rt0 h L I x y k Ix Ky Kk).
      rewrite (proj1 (kid_dn_at rt0 h L I x y Ix Ky)), (proj1 (kid_dn_at rt0 h L I x k Ix Kk)), E. apply same_refl. }
    apply G; auto. exact (t_nodup_kids h L (i_tree C rt0 h L I) x Ix).
  Qed.
  Lemma not_root h L D rd : inv C rt h L -> present h L D -> ~ same rt (rd :: D).
  Proof. intros I (pe & Pe & Sp) S. pose proof (root_len lower C rt h L I pe Pe). apply same_len in S. apply same_len in Sp. cbn [length] in S. lia. Qed.

  Definition add_list (n : nat) (x : ref) : list top := map TAdd (map (ent_at hB) (pre hB n x)).
  Definition del_list (n : nat) (x : ref) : list top := map (fun e => TDelete (e_dn e)) (map (ent_at hA) (rev (pre hA n x))).
  Definition wanted (d : dn) (eb : entry) : Prop := ents hB LB eb /\ intree d (e_dn eb).

  Lemma add_list_S n x : add_list (S n) x = TAdd (ent_at hB x) :: concat (map (add_list n) (rev (kids hB x))).
  Proof.
    unfold add_list. cbn [pre map]. f_equal. induction (rev (kids hB x)) as [|k l IH]; cbn [flat_map map concat]; [reflexivity|]. rewrite !map_app, IH. reflexivity.
  Qed.
  Lemma del_list_S n x : del_list (S n) x = concat (map (del_list n) (kids hA x)) ++ [TDelete (dn_at hA x)].
  Proof.
    unfold del_list. cbn [pre rev]. rewrite !map_app. cbn [map]. rewrite dn_at_ent. f_equal. generalize (kids hA x). intros l.
    assert (G : forall l, rev (flat_map (pre hA n) l) = concat (map (fun k => rev (pre hA n k)) (rev l))).
    { induction l0 as [|k l0 IH]; cbn [flat_map rev map]; [reflexivity|]. rewrite rev_app_distr, IH, map_app, concat_app. cbn [map concat]. now rewrite app_nil_r. }
    rewrite G, rev_involutive. induction l as [|k l IH]; cbn [map concat]; [reflexivity|]. now rewrite !map_app, IH.
  Qed.

  Lemma add_xform n : forall x p, In p LB -> In x (kids hB p) -> (forall c, In c LB -> intree (dn_at hB x) (dn_at hB c) -> (dlen hB c - dlen hB x < n)%nat) ->
    xform (add_list n x) (dn_at hB x) (fun _ => False) (wanted (dn_at hB x)).
  Proof.
    induction n as [|n IH]; intros x p Ip Kx Dp.
    { exfalso. pose proof (proj1 (kid_facts rtB hB LB IB p x Ip Kx)) as Ix. specialize (Dp x Ix (intree_same lower _ _ (same_refl lower _))). lia. }
    pose proof (proj1 (kid_facts rtB hB LB IB p x Ip Kx)) as Ix. destruct (kid_dn_at rtB hB LB IB p x Ip Kx) as (Ed & Crd).
    set (rd := rdn_at hB x) in *. set (D := dn_at hB p) in *. set (d := dn_at hB x) in *.
    intros h L I P HA. rewrite add_list_S.
    assert (Ex : ents hB LB (ent_at hB x)) by (exists x; auto). assert (Dx : e_dn (ent_at hB x) = d) by apply dn_at_ent.
    assert (NR : ~ same rt d -> present h L D) by (intros NS; destruct (P NS) as (pe & Pe & Sp); rewrite Ed in Sp; exists pe; auto).
    assert (LEN : forall e, ents h L e -> (length rt <= length (e_dn e))%nat) by (intros e Ee; eapply root_len; eauto).
    assert (RN : ~ same rt d).
    { intros S. destruct (i_root C rt h L I) as (n0 & N0 & _ & D0).
      assert (ents h L (ent_at h 0%nat)) by (exists 0%nat; split; [apply (t_root h L (i_tree C rt h L I))|reflexivity]).
      apply (HA (ent_at h 0%nat)) in H; [exact H|]. rewrite dn_at_ent. unfold dn_at. rewrite N0, D0. apply intree_same, same_sym, S. }
    destruct (NR RN) as (pe & Pe & Sp).
    destruct (LK_copy (ent_at hB x) (rd :: e_dn pe) Ex) as (eb' & its & Tb & Db' & Its & Lk).
    { rewrite Dx, Ed. apply same_cons. split; [apply rdn_refl|exact Sp]. }
    destruct (add_step lower oc_first depth C CC rt h L I rd D eb' pe its) as (h1 & L1 & P1 & I1 & E1); auto.
    { now rewrite Db', Dx. } { apply SB, Ip. }
    { intros e Ee Se. apply (HA e); [|exact Ee]. rewrite Ed. apply intree_same, same_sym, Se. }
    set (new := new_entry lower (rd :: e_dn pe) its) in *.
    assert (Sn : same d (e_dn new)) by (unfold new, new_entry; cbn [e_dn]; rewrite Ed; apply same_cons; split; [apply rdn_refl|now apply same_sym]).
    set (it := fun k => mkItem (add_list n k) (rdn_at hB k) d (fun _ => False) (wanted (dn_at hB k))).
    assert (IT : forall k, In k (kids hB x) -> x_dn (it k) = dn_at hB k).
    { intros k K. unfold it, x_dn. cbn [x_rd x_up]. symmetry. apply (kid_dn_at rtB hB LB IB x k Ix K). }
    assert (UP : forall k e, In k (kids hB x) -> intree (dn_at hB k) (e_dn e) -> intree d (e_dn e)).
    { intros k e K Hk. eapply intree_trans; [|exact Hk]. rewrite (proj1 (kid_dn_at rtB hB LB IB x k Ix K)). apply intree_cons. }
    assert (NK : forall k e, In k (kids hB x) -> same d (e_dn e) -> ~ intree (dn_at hB k) (e_dn e)).
    { intros k e K S Hk. apply intree_len in Hk. rewrite (proj1 (kid_dn_at rtB hB LB IB x k Ix K)) in Hk. apply same_len in S. cbn [length] in Hk. fold d in Hk. lia. }
    destruct (xforms lower oc_first depth C CI rt like tr d (map it (rev (kids hB x)))) with (h := h1) (L := L1) as (h2 & L2 & D2 & I2 & OUT & INN & COV).
    - apply Forall_forall. intros y J. apply in_map_iff in J as (k & <- & K). apply in_rev in K. rewrite (IT k K). cbn [it x_ops x_A x_B x_rd x_up].
      split; [|split; [apply (kid_dn_at rtB hB LB IB x k Ix K)|apply same_refl]]. apply (IH k x Ix K). intros c Ic Hc.
      pose proof (dlen_kid hB LB TB x k Ix K) as DK. specialize (Dp c Ic).
      assert (intree d (dn_at hB c)) by (eapply intree_trans; [|exact Hc]; rewrite (proj1 (kid_dn_at rtB hB LB IB x k Ix K)); apply intree_cons).
      specialize (Dp H). apply intree_len in Hc. rewrite <- !dlen_at in Hc. lia.
    - rewrite map_map. cbn [it x_rd]. rewrite map_rev. apply NoDup_rev. exact (kids_rdn_nodup rtB hB LB IB x Ix).
    - exact I1.
    - exists new. split; [apply E1; now right|now apply same_sym].
    - intros y J e Hy. apply in_map_iff in J as (k & <- & K). apply in_rev in K. rewrite (IT k K) in Hy. cbn [it x_A]. split; [|intros []].
      intros Ee. apply E1 in Ee as [Ee| ->]; [exact (proj1 (HA e (UP k e K Hy)) Ee)|]. exact (NK k new K Sn Hy).
    - exists h2, L2. split; [|split; [exact I2|]].
      { eapply done_cons; [rewrite Tb; exact P1|]. rewrite map_map in D2. cbn [it x_ops] in D2. exact D2. }
      assert (KR : forall e, (forall k, In k (kids hB x) -> ~ intree (dn_at hB k) (e_dn e)) -> (ents h2 L2 e <-> ents h L e \/ e = new)).
      { intros e NI. rewrite OUT, E1; [reflexivity|]. intros y J. apply in_map_iff in J as (k & <- & K). apply in_rev in K. rewrite (IT k K). auto. }
      split; [|split].
      + intros e NI. rewrite KR by (intros k K Hk; apply NI; eapply UP; eauto). split; [|auto]. intros [Ee| ->]; [exact Ee|]. exfalso. apply NI, intree_same, Sn.
      + intros e Hd Ee. destruct (in_some lower (map it (rev (kids hB x))) (e_dn e)) as [(y & J & Hy)|NI].
        * destruct (INN y J e Hy Ee) as (eb & X & Le). exists eb. split; [|exact Le].
          apply in_map_iff in J as (k & <- & K). apply in_rev in K. destruct X as (Eb & Hb). split; [exact Eb|]. eapply UP; eauto.
        * assert (NI' : forall k, In k (kids hB x) -> ~ intree (dn_at hB k) (e_dn e)).
          { intros k K Hk. apply (NI (it k)); [apply in_map; now apply -> in_rev|]. now rewrite (IT k K). }
          destruct (proj1 (KR e NI') Ee) as [Ee'| ->]; [exact (False_ind _ (proj1 (HA e Hd) Ee'))|].
          exists (ent_at hB x). split; [|exact Lk]. split; [exact Ex|]. rewrite Dx. apply intree_same, same_refl.
      + intros eb (Eb & Hb). destruct (split_region rtB hB LB IB x eb Ix Eb Hb) as [->|(k & K & Hk)].
        * exists new. split; [apply intree_same, Sn|]. split; [|exact Lk]. apply KR; [intros k K; exact (NK k new K Sn)|now right].
        * destruct (COV (it k)) with (eb := eb) as (e & He & Ee & Le); [apply in_map; now apply -> in_rev|split; auto|].
          rewrite (IT k K) in He. exists e. split; [eapply UP; eauto|auto].
  Qed.

  Lemma del_xform n : forall x p, In p LA -> In x (kids hA p) -> (forall c, In c LA -> intree (dn_at hA x) (dn_at hA c) -> (dlen hA c - dlen hA x < n)%nat) ->
    xform (del_list n x) (dn_at hA x) (ents hA LA) (fun _ => False).
  Proof.
    induction n as [|n IH]; intros x p Ip Kx Dp.
    { exfalso. pose proof (proj1 (kid_facts rt hA LA IA p x Ip Kx)) as Ix. specialize (Dp x Ix (intree_same lower _ _ (same_refl lower _))). lia. }
    pose proof (proj1 (kid_facts rt hA LA IA p x Ip Kx)) as Ix. destruct (kid_dn_at rt hA LA IA p x Ip Kx) as (Ed & Crd).
    set (rd := rdn_at hA x) in *. set (D := dn_at hA p) in *. set (d := dn_at hA x) in *.
    intros h L I P HA. rewrite del_list_S. fold d.
    assert (Dx : e_dn (ent_at hA x) = d) by apply dn_at_ent.
    assert (Hself : intree d d) by (apply intree_same, same_refl).
    assert (Ex : ents h L (ent_at hA x)) by (apply HA; [now rewrite Dx|exists x; auto]).
    assert (RN : ~ same rt d).
    { intros S. assert (ents hA LA (ent_at hA p)) by (exists p; auto). pose proof (root_len lower C rt hA LA IA _ H) as X. rewrite dn_at_ent in X.
      apply same_len in S. rewrite Ed in S. cbn [length] in S. fold D in X. lia. }
    set (it := fun k => mkItem (del_list n k) (rdn_at hA k) d (ents hA LA) (fun _ => False)).
    assert (IT : forall k, In k (kids hA x) -> x_dn (it k) = dn_at hA k).
    { intros k K. unfold it, x_dn. cbn [x_rd x_up]. symmetry. apply (kid_dn_at rt hA LA IA x k Ix K). }
    assert (UP : forall k e, In k (kids hA x) -> intree (dn_at hA k) (e_dn e) -> intree d (e_dn e)).
    { intros k e K Hk. eapply intree_trans; [|exact Hk]. rewrite (proj1 (kid_dn_at rt hA LA IA x k Ix K)). apply intree_cons. }
    assert (NK : forall k e, In k (kids hA x) -> same d (e_dn e) -> ~ intree (dn_at hA k) (e_dn e)).
    { intros k e K S Hk. apply intree_len in Hk. rewrite (proj1 (kid_dn_at rt hA LA IA x k Ix K)) in Hk. apply same_len in S. cbn [length] in Hk. fold d in Hk. lia. }
    destruct (xforms lower oc_first depth C CI rt like tr d (map it (kids hA x))) with (h := h) (L := L) as (h1 & L1 & D1 & I1 & OUT & INN & COV).
    - apply Forall_forall. intros y J. apply in_map_iff in J as (k & <- & K). rewrite (IT k K). cbn [it x_ops x_A x_B x_rd x_up].
      split; [|split; [apply (kid_dn_at rt hA LA IA x k Ix K)|apply same_refl]]. apply (IH k x Ix K). intros c Ic Hc.
      pose proof (dlen_kid hA LA TA x k Ix K) as DK. specialize (Dp c Ic).
      assert (intree d (dn_at hA c)) by (eapply intree_trans; [|exact Hc]; rewrite (proj1 (kid_dn_at rt hA LA IA x k Ix K)); apply intree_cons).
      specialize (Dp H). apply intree_len in Hc. rewrite <- !dlen_at in Hc. lia.
    - rewrite map_map. cbn [it x_rd]. exact (kids_rdn_nodup rt hA LA IA x Ix).
    - exact I.
    - exists (ent_at hA x). split; [exact Ex|rewrite Dx; apply same_refl].
    - intros y J e Hy. apply in_map_iff in J as (k & <- & K). rewrite (IT k K) in Hy. cbn [it x_A]. apply HA. eapply UP; eauto.
    - assert (ONLY : forall e, ents h1 L1 e -> intree d (e_dn e) -> e = ent_at hA x).
      { intros e Ee Hd. destruct (in_some lower (map it (kids hA x)) (e_dn e)) as [(y & J & Hy)|NI].
        - destruct (INN y J e Hy Ee) as (eb & Fb & _). apply in_map_iff in J as (k & <- & K). destruct Fb.
        - apply OUT in Ee; [|exact NI]. apply HA in Ee; [|exact Hd]. destruct (split_region rt hA LA IA x e Ix Ee Hd) as [Q|(k & K & Hk)]; [exact Q|].
          exfalso. apply (NI (it k)); [now apply in_map|]. now rewrite (IT k K). }
      assert (Ex1 : ents h1 L1 (ent_at hA x)).
      { apply OUT; [|exact Ex]. intros y J. apply in_map_iff in J as (k & <- & K). rewrite (IT k K). apply NK; [exact K|]. rewrite Dx. apply same_refl. }
      destruct (del_step lower oc_first depth C CC rt h1 L1 I1 d (ent_at hA x)) as (h2 & L2 & P2 & I2 & E2); auto.
      { rewrite Dx. apply same_refl. } { apply SA, Ix. }
      { intros e Ee Hd. rewrite (ONLY e Ee Hd), Dx. apply same_refl. }
      exists h2, L2. split; [|split; [exact I2|]].
      { eapply done_app; [|eapply done_cons; [rewrite <- Dx, LK_del, Dx by (exists x; auto); exact P2|apply done_nil]]. rewrite map_map in D1. cbn [it x_ops] in D1. exact D1. }
      split; [|split; [|intros eb []]].
      + intros e NI. rewrite E2, OUT; [split; [tauto|]|].
        * intros Ee. split; [exact Ee|]. intros S. apply NI, intree_same, same_sym, S.
        * intros y J. apply in_map_iff in J as (k & <- & K). rewrite (IT k K). intros Hk. apply NI. eapply UP; eauto.
      + intros e Hd Ee. exfalso. apply E2 in Ee as (Ee & NS). apply NS. rewrite (ONLY e Ee Hd), Dx. apply same_refl.
  Qed.

  (** *** The sets of RDNs *)
  Notation rdn_mem := (rdn_mem lower hash_pair hash_tuple).
  Notation rdn_set := (rdn_set lower hash_pair hash_tuple).
  Lemma rdn_mem_in x l : C x -> Forall C l -> (rdn_mem x l = true <-> In x l).
  Proof.
    intros Cx F. unfold TreeDiffModel.rdn_mem. rewrite existsb_exists. unfold TreeDiffModel.same_rdn. split.
    - intros (y & J & E). apply andb_prop in E as (_ & E). rewrite Forall_forall in F. now rewrite (CI x y Cx (F y J) E).
    - intros J. exists x. split; [exact J|]. rewrite Z.eqb_refl, rdn_refl. reflexivity.
  Qed.
  Lemma rdn_mem_out x l : C x -> Forall C l -> (rdn_mem x l = false <-> ~ In x l).
  Proof. intros Cx F. rewrite <- (rdn_mem_in x l Cx F). destruct (rdn_mem x l); split; congruence. Qed.
  Lemma rdn_set_id l : Forall C l -> NoDup l -> rdn_set l [] = l.
  Proof.
    assert (G : forall l acc, Forall C (acc ++ l) -> NoDup (acc ++ l) -> rdn_set l acc = acc ++ l).
    { clear l. induction l as [|x l IH]; intros acc F ND; cbn [TreeDiffModel.rdn_set]; [now rewrite app_nil_r|].
      pose proof F as F'. apply Forall_app in F' as (Fa & Fl). apply Forall_cons_iff in Fl as (Cx & Fl).
      apply NoDup_remove in ND as ND'. rewrite (proj2 (rdn_mem_out x acc Cx Fa)); [|intros J; apply (proj2 ND'); apply in_or_app; auto].
      rewrite IH; rewrite <- app_assoc; auto. }
    intros F ND. exact (G l [] F ND).
  Qed.
  Section Kids.
    Variables (rt0 : dn) (h : heap) (L : list ref).
    Hypothesis I : inv C rt0 h L.
    Variable a : ref.
    Hypothesis Ia : In a L.
    Lemma children_kids : children_of h a = Ok (kids h a).
    Proof. unfold children_of, deref, kids. destruct (t_node h L (i_tree C rt0 h L I) a Ia) as (n & ->). reflexivity. Qed.
    Lemma rdn_of_kid k : In k (kids h a) -> rdn_of h k = Ok (rdn_at h k).
    Proof.
      intros K. destruct (kid_facts rt0 h L I a k Ia K) as (Ik & rd & E & _). destruct (t_node h L (i_tree C rt0 h L I) k Ik) as (n & N).
      unfold rdn_of, rdn_at, deref. unfold dn_at in *. rewrite N in *. cbn [bind]. rewrite E. reflexivity.
    Qed.
    Lemma kids_rdns l : (forall k, In k l -> In k (kids h a)) -> mapR (rdn_of h) l = Ok (map (rdn_at h) l).
    Proof.
      induction l as [|k l IH]; intros Sub; cbn [mapR map]; [reflexivity|]. rewrite (rdn_of_kid k) by (apply Sub; now left). cbn [bind].
      rewrite IH by (intros y J; apply Sub; now right). reflexivity.
    Qed.
    Lemma kids_C : Forall C (map (rdn_at h) (kids h a)).
    Proof. apply Forall_forall. intros rd J. apply in_map_iff in J as (k & <- & K). apply (kid_dn_at rt0 h L I a k Ia K). Qed.
    Lemma to_child k : In k (kids h a) -> rdn_to_child lower h (kids h a) (rdn_at h k) = Ok k.
    Proof.
      intros K. unfold rdn_to_child.
      assert (M : forall l, (forall x, In x l -> In x (kids h a)) -> mapR (fun c => do x <- rdn_of h c; Ok (x, c)) l = Ok (map (fun c => (rdn_at h c, c)) l)).
      { induction l as [|x l IH]; intros Sub; cbn [mapR map]; [reflexivity|]. rewrite (rdn_of_kid x) by (apply Sub; now left). cbn [bind].
        rewrite IH by (intros y J; apply Sub; now right). reflexivity. }
      rewrite M by auto. cbn [bind].
      assert (G : forall l, (forall x, In x l -> In x (kids h a)) -> NoDup (map (rdn_at h) l) ->
        List.filter (fun x => rdn_eqb lower (fst x) (rdn_at h k)) (map (fun c => (rdn_at h c, c)) l) =
        if in_dec Nat.eq_dec k l then [(rdn_at h k, k)] else []).
      { induction l as [|x l IH]; intros Sub ND; [reflexivity|]. cbn [map List.filter fst]. cbn [map] in ND. apply NoDup_cons_iff in ND as (NX & ND).
        rewrite IH by (auto; intros y J; apply Sub; now right).
        destruct (rdn_eqb lower (rdn_at h x) (rdn_at h k)) eqn:E.
        - apply (CI _ _ (proj2 (kid_dn_at rt0 h L I a x Ia (Sub x (or_introl eq_refl)))) (proj2 (kid_dn_at rt0 h L I a k Ia K))) in E.
          assert (x = k) as ->.
          { apply (siblings lower C CC rt0 h L I a x k Ia); [apply Sub; now left|exact K|].
            rewrite (proj1 (kid_dn_at rt0 h L I a x Ia (Sub x (or_introl eq_refl)))), (proj1 (kid_dn_at rt0 h L I a k Ia K)), E. apply same_refl. }
          destruct (in_dec Nat.eq_dec k l) as [J|_]; [exfalso; apply NX; now apply in_map|].
          destruct (in_dec Nat.eq_dec k (k :: l)) as [_|N]; [reflexivity|exfalso; apply N; now left].
        - assert (x <> k) by (intros ->; rewrite rdn_refl in E; discriminate).
          destruct (in_dec Nat.eq_dec k l) as [J|J], (in_dec Nat.eq_dec k (x :: l)) as [J'|J']; try reflexivity; [exfalso; apply J'; now right|].
          destruct J' as [J'|J']; contradiction. }
      rewrite G by (auto; exact (kids_rdn_nodup rt0 h L I a Ia)). destruct (in_dec Nat.eq_dec k (kids h a)); [reflexivity|contradiction].
    Qed.
    Lemma to_children l : (forall rd, In rd l -> In rd (map (rdn_at h) (kids h a))) ->
      exists ks, mapR (rdn_to_child lower h (kids h a)) l = Ok ks /\ map (rdn_at h) ks = l /\ forall k, In k ks -> In k (kids h a).
    Proof.
      induction l as [|rd l IH]; intros Sub; cbn [mapR]; [exists []; split; [reflexivity|split; [reflexivity|intros k []]]|].
      destruct IH as (ks & M & E & K); [intros x J; apply Sub; now right|].
      pose proof (Sub rd (or_introl eq_refl)) as J. apply in_map_iff in J as (k & <- & Kk). rewrite (to_child k Kk). cbn [bind]. rewrite M. cbn [bind].
      exists (k :: ks). split; [reflexivity|]. cbn [map]. split; [now rewrite E|]. intros x [<-|J]; auto.
    Qed.
    Lemma entry_of_all l : (forall x, In x l -> In x L) -> mapR (entry_of h) l = Ok (map (ent_at h) l).
    Proof.
      induction l as [|x l IH]; intros Sub; cbn [mapR map]; [reflexivity|]. destruct (t_node h L (i_tree C rt0 h L I) x (Sub x (or_introl eq_refl))) as (n & N).
      unfold entry_of at 1, deref. rewrite N. cbn [bind]. rewrite IH by (intros y J; apply Sub; now right). cbn [bind]. unfold ent_at at 2. now rewrite N.
    Qed.
    Lemma whole_pre k : In k (kids h a) -> (forall r, In r L -> (length (dn_at h r) < depth)%nat) -> whole depth h k = Ok (pre h depth k).
    Proof.
      intros K S. unfold whole. destruct (kid_facts rt0 h L I a k Ia K) as (Ik & _). rewrite (collect h L (i_tree C rt0 h L I)); [reflexivity|exact Ik|].
      intros c Bc. pose proof (below_in h L (i_tree C rt0 h L I) k c Bc Ik) as Ic. specialize (S c Ic). rewrite <- dlen_at in S. lia.
    Qed.
  End Kids.
  Lemma added_ops_eq b ks : In b LB -> (forall k, In k ks -> In k (kids hB b)) -> added_ops depth hB ks = Ok (concat (map (add_list depth) ks)).
  Proof.
    intros Ib. induction ks as [|k ks IH]; intros Sub; cbn [added_ops map concat]; [reflexivity|].
    assert (K : In k (kids hB b)) by (apply Sub; now left).
    rewrite (whole_pre rtB hB LB IB b Ib k K SB). cbn [bind]. rewrite (entry_of_all rtB hB LB IB).
    - cbn [bind]. rewrite IH by (intros y J; apply Sub; now right). reflexivity.
    - intros x J. eapply (pre_in hB LB TB); [|exact J]. apply (kid_facts rtB hB LB IB b k Ib K).
  Qed.
  Lemma deleted_ops_eq a ks : In a LA -> (forall k, In k ks -> In k (kids hA a)) -> deleted_ops depth hA ks = Ok (concat (map (del_list depth) ks)).
  Proof.
    intros Ia. induction ks as [|k ks IH]; intros Sub; cbn [deleted_ops map concat]; [reflexivity|].
    assert (K : In k (kids hA a)) by (apply Sub; now left).
    rewrite (whole_pre rt hA LA IA a Ia k K SA). cbn [bind]. rewrite (entry_of_all rt hA LA IA).
    - cbn [bind]. rewrite IH by (intros y J; apply Sub; now right). reflexivity.
    - intros x J. apply in_rev in J. eapply (pre_in hA LA TA); [|exact J]. apply (kid_facts rt hA LA IA a k Ia K).
  Qed.
  Lemma sort_in l x : In x (sort_rdns lower l) <-> In x l.
  Proof. unfold sort_rdns. split; intros J; (eapply Permutation_in; [|exact J]); [apply Permutation_sym|]; apply sort_perm. Qed.
  Lemma sort_nodup l : NoDup l -> NoDup (sort_rdns lower l).
  Proof. intros N. unfold sort_rdns. eapply Permutation_NoDup; [apply sort_perm|exact N]. Qed.

  (** Where the operations come from. *)
  Definition came (op : top) : Prop :=
    match op with
    | TModify d ms => exists ea eb, ents hA LA ea /\ ents hB LB eb /\ same (e_dn ea) (e_dn eb) /\ d = e_dn ea /\ diff lower ea eb = Ok (Some ms)
    | TAdd e => ents hB LB e
    | TDelete d => exists e, ents hA LA e /\ d = e_dn e
    end.
  Lemma add_came n x : In x LB -> Forall came (add_list n x).
  Proof.
    intros Ix. apply Forall_forall. intros op J. unfold add_list in J. rewrite map_map in J. apply in_map_iff in J as (y & <- & J).
    cbn [came]. exists y. split; [exact (pre_in hB LB TB n x y Ix J)|reflexivity].
  Qed.
  Lemma del_came n x : In x LA -> Forall came (del_list n x).
  Proof.
    intros Ix. apply Forall_forall. intros op J. unfold del_list in J. rewrite map_map in J. apply in_map_iff in J as (y & <- & J). apply in_rev in J.
    cbn [came]. exists (ent_at hA y). split; [|reflexivity]. exists y. split; [exact (pre_in hA LA TA n x y Ix J)|reflexivity].
  Qed.
  Lemma concat_came {A} (f : A -> list top) l : (forall x, In x l -> Forall came (f x)) -> Forall came (concat (map f l)).
  Proof. intros H. induction l as [|x l IH]; cbn [map concat]; [constructor|]. apply Forall_app. split; [apply H; now left|apply IH; intros y J; apply H; now right]. Qed.

  Lemma diff_xform n : forall a b, In a LA -> In b LB -> same (dn_at hA a) (dn_at hB b) ->
    (forall c, In c LA -> intree (dn_at hA a) (dn_at hA c) -> (dlen hA c - dlen hA a < n)%nat) ->
    exists ops, diff_tree lower hash_pair hash_tuple depth n hA a hB b = Ok ops /\ Forall came ops /\
      xform ops (dn_at hA a) (ents hA LA) (wanted (dn_at hA a)).
  Proof.
    induction n as [|n IH]; intros a b Ia Ib Sab Dp.
    { specialize (Dp a Ia (intree_same lower _ _ (same_refl lower _))). lia. }
    set (d := dn_at hA a) in *.
    set (ea := ent_at hA a). set (eb := ent_at hB b).
    assert (Ea : ents hA LA ea) by (exists a; auto). assert (Eb : ents hB LB eb) by (exists b; auto).
    assert (Da : e_dn ea = d) by apply dn_at_ent. assert (Db : e_dn eb = dn_at hB b) by apply dn_at_ent.
    destruct (ent_node C rt hA LA IA a Ia) as (na & Na & Ena). destruct (ent_node C rtB hB LB IB b Ib) as (nb & Nb & Enb). fold ea in Ena. fold eb in Enb.
    set (my := map (rdn_at hA) (kids hA a)). set (his := map (rdn_at hB) (kids hB b)).
    assert (Cm : Forall C my) by exact (kids_C rt hA LA IA a Ia). assert (Ch : Forall C his) by exact (kids_C rtB hB LB IB b Ib).
    assert (Nm : NoDup my) by exact (kids_rdn_nodup rt hA LA IA a Ia). assert (Nh : NoDup his) by exact (kids_rdn_nodup rtB hB LB IB b Ib).
    set (com := sort_rdns lower (List.filter (fun x => rdn_mem x his) my)).
    set (add := sort_rdns lower (List.filter (fun x => negb (rdn_mem x my)) his)).
    set (del := sort_rdns lower (List.filter (fun x => negb (rdn_mem x his)) my)).
    assert (Icom : forall x, In x com <-> In x my /\ In x his).
    { intros x. unfold com. rewrite sort_in, filter_In. rewrite Forall_forall in Cm. split; intros (J & E); (split; [exact J|]); apply (rdn_mem_in x his (Cm x J) Ch); exact E. }
    assert (Iadd : forall x, In x add <-> In x his /\ ~ In x my).
    { intros x. unfold add. rewrite sort_in, filter_In, negb_true_iff. rewrite Forall_forall in Ch. split; intros (J & E); (split; [exact J|]); apply (rdn_mem_out x my (Ch x J) Cm); exact E. }
    assert (Idel : forall x, In x del <-> In x my /\ ~ In x his).
    { intros x. unfold del. rewrite sort_in, filter_In, negb_true_iff. pose proof Cm as Cm'. rewrite Forall_forall in Cm'. split; intros (J & E); (split; [exact J|]); apply (rdn_mem_out x his (Cm' x J) Ch); exact E. }
    assert (NDall : NoDup (com ++ add ++ del)).
    { apply NoDup_app_intro2; [apply sort_nodup, NoDup_filter, Nm|apply NoDup_app_intro2; [apply sort_nodup, NoDup_filter, Nh|apply sort_nodup, NoDup_filter, Nm|]|].
      - intros x J1 J2. apply Iadd in J1. apply Idel in J2. tauto.
      - intros x J1 J2. apply Icom in J1. apply in_app_iff in J2 as [J2|J2]; [apply Iadd in J2|apply Idel in J2]; tauto. }
    (* the children of the lists of RDNs *)
    destruct (to_children rt hA LA IA a Ia com) as (xs & Mx & Ex & Kx); [intros rd J; now apply Icom in J|].
    destruct (to_children rtB hB LB IB b Ib com) as (ys & My & Ey & Ky); [intros rd J; now apply Icom in J|].
    destruct (to_children rtB hB LB IB b Ib add) as (ac & Mac & Eac & Kac); [intros rd J; now apply Iadd in J|].
    destruct (to_children rt hA LA IA a Ia del) as (dc & Mdc & Edc & Kdc); [intros rd J; now apply Idel in J|].
    assert (PAIRS : mapR (fun rd => do x <- rdn_to_child lower hA (kids hA a) rd; do y <- rdn_to_child lower hB (kids hB b) rd; Ok (x, y)) com = Ok (combine xs ys)).
    { clear - Mx My. revert xs ys Mx My. induction com as [|rd l IHl]; intros xs ys Mx My; cbn [mapR] in *.
      - apply Ok_inj in Mx. subst. reflexivity.
      - apply bind_ok in Mx as (x & Hx & Mx). apply bind_ok in Mx as (xs' & Hxs & Mx). apply Ok_inj in Mx. subst xs.
        apply bind_ok in My as (y & Hy & My). apply bind_ok in My as (ys' & Hys & My). apply Ok_inj in My. subst ys.
        rewrite Hx, Hy. cbn [bind]. rewrite (IHl xs' ys' Hxs Hys). reflexivity. }
    assert (PR : forall p, In p (combine xs ys) -> In (fst p) (kids hA a) /\ In (snd p) (kids hB b) /\ rdn_at hA (fst p) = rdn_at hB (snd p)).
    { assert (Exy : map (rdn_at hA) xs = map (rdn_at hB) ys) by congruence. clear - Exy Kx Ky. revert ys Exy Ky.
      induction xs as [|x xs IHx]; intros [|y ys] Exy Ky p J; cbn [combine map] in *; try destruct J; try discriminate.
      - subst p. injection Exy as E _. cbn [fst snd]. split; [apply Kx; now left|]. split; [apply Ky; now left|exact E].
      - injection Exy as _ E. apply (IHx (fun k Q => Kx k (or_intror Q)) ys E (fun k Q => Ky k (or_intror Q)) p). assumption. }
    assert (Mfst : map fst (combine xs ys) = xs /\ map snd (combine xs ys) = ys).
    { apply combine_maps. apply (f_equal (@length _)) in Ex, Ey. rewrite map_length in Ex, Ey. congruence. }
    assert (KidSame : forall x y, In x (kids hA a) -> In y (kids hB b) -> rdn_at hA x = rdn_at hB y -> same (dn_at hA x) (dn_at hB y)).
    { intros x y Jx Jy E. rewrite (proj1 (kid_dn_at rt hA LA IA a x Ia Jx)), (proj1 (kid_dn_at rtB hB LB IB b y Ib Jy)), E. apply same_cons. split; [apply rdn_refl|exact Sab]. }
    assert (KidDp : forall x, In x (kids hA a) -> forall c, In c LA -> intree (dn_at hA x) (dn_at hA c) -> (dlen hA c - dlen hA x < n)%nat).
    { intros x Jx c Ic Hc. pose proof (dlen_kid hA LA TA a x Ia Jx) as DK. specialize (Dp c Ic).
      assert (H : intree d (dn_at hA c)) by (eapply intree_trans; [|exact Hc]; rewrite (proj1 (kid_dn_at rt hA LA IA a x Ia Jx)); apply intree_cons).
      specialize (Dp H). apply intree_len in Hc. rewrite <- !dlen_at in Hc. lia. }
    destruct (mapR_exists (fun p => diff_tree lower hash_pair hash_tuple depth n hA (fst p) hB (snd p)) (combine xs ys)) as (opss & Mo & Fo).
    { intros p J. destruct (PR p J) as (J1 & J2 & E). destruct (IH (fst p) (snd p)) as (o & Ho & _); [..|eauto].
      - apply (kid_facts rt hA LA IA a _ Ia J1).
      - apply (kid_facts rtB hB LB IB b _ Ib J2).
      - auto.
      - auto. }
    pose proof (LK_diff ea eb Ea Eb) as LKD. rewrite Da, Db in LKD. specialize (LKD Sab).
    assert (FIRST : exists rd0 e1, diff lower ea eb = Ok rd0 /\ like e1 eb /\ e_dn e1 = d /\
      match rd0 with None => e1 = ea | Some ms => exists ms', tr (TModify d ms) = TModify d ms' /\ patch_all lower ms' ea = (e1, Ok tt) end).
    { destruct LKD as [(Df & Lk)|(ms & ms' & e' & Df & Tm & Pt & De & Lk)]; [exists None, ea; auto|]. exists (Some ms), e'. rewrite De. eauto 10. }
    destruct FIRST as (rd0 & e1 & Df & Lk1 & De1 & First).
    set (first := match rd0 with Some ms => [TModify (e_dn ea) ms] | None => [] end).
    exists (first ++ concat opss ++ concat (map (add_list depth) ac) ++ concat (map (del_list depth) dc)).
    split.
    { cbn [diff_tree]. unfold entry_of, deref. rewrite Na, Nb. cbn [bind]. rewrite Ena, Enb, Da, Db.
      assert (Q : dn_eqb lower d (dn_at hB b) = true) by now apply dn_eqb_spec. rewrite Q. cbn [negb]. rewrite Df. cbn [bind].
      rewrite (children_kids rt hA LA IA a Ia), (children_kids rtB hB LB IB b Ib). cbn [bind].
      rewrite (kids_rdns rt hA LA IA a Ia (kids hA a)) by auto. rewrite (kids_rdns rtB hB LB IB b Ib (kids hB b)) by auto. cbn [bind].
      fold my his. rewrite (rdn_set_id my Cm Nm), (rdn_set_id his Ch Nh). fold com add del. rewrite PAIRS. cbn [bind]. rewrite Mo. cbn [bind].
      rewrite Mac. cbn [bind]. rewrite (added_ops_eq b ac Ib Kac). cbn [bind]. rewrite Mdc. cbn [bind]. rewrite (deleted_ops_eq a dc Ia Kdc). cbn [bind].
      unfold first. rewrite Da. reflexivity. }
    split.
    { repeat (apply Forall_app; split).
      - unfold first. destruct rd0 as [ms|]; constructor; [|constructor]. exists ea, eb. rewrite Da, Db. auto.
      - clear - Fo PR IH KidSame KidDp IA IB Ia Ib. induction Fo as [|p o l m E F IHF]; cbn [concat]; [constructor|]. apply Forall_app. split.
        + destruct (PR p (or_introl eq_refl)) as (J1 & J2 & Eq). destruct (IH (fst p) (snd p)) as (o' & Ho & Co & _); [..|rewrite E in Ho; apply Ok_inj in Ho; now subst].
          * apply (kid_facts rt hA LA IA a _ Ia J1).
          * apply (kid_facts rtB hB LB IB b _ Ib J2).
          * auto.
          * auto.
        + apply IHF. intros q J. apply PR. now right.
      - apply concat_came. intros y J. apply add_came. apply (kid_facts rtB hB LB IB b y Ib (Kac y J)).
      - apply concat_came. intros y J. apply del_came. apply (kid_facts rt hA LA IA a y Ia (Kdc y J)). }
    intros h L I P HA.
    (* the entry itself *)
    assert (Eah : ents h L ea) by (apply HA; [rewrite Da; apply intree_same, same_refl|exact Ea]).
    assert (ROOT : exists h1, done first h h1 /\ inv C rt h1 L /\ forall x, ents h1 L x <-> (ents h L x /\ ~ same (e_dn x) d) \/ x = e1).
    { unfold first. destruct rd0 as [ms|].
      - destruct First as (ms' & Tm & First). destruct (mod_step lower oc_first depth C CC rt h L I d ms' ea e1) as (h1 & P1 & I1 & E1); auto.
        + rewrite Da. apply same_refl.
        + apply SA, Ia.
        + congruence.
        + rewrite Da. exists h1. split; [eapply done_cons; [rewrite Tm; exact P1|apply done_nil]|]. auto.
      - subst e1. exists h. split; [apply done_nil|]. split; [exact I|]. intros x. split; [|intros [(X & _)| ->]; auto].
        intros X. destruct (dn_eqb lower (e_dn x) d) eqn:Q.
        + apply dn_eqb_spec in Q. right. apply (ents_unique lower C CC rt h L I); auto. now rewrite Da.
        + left. split; [exact X|]. intros S. apply dn_eqb_spec in S. congruence. }
    destruct ROOT as (h1 & D1 & I1 & E1).
    (* the regions of the children *)
    set (itc := fun po : (ref * ref) * list top => mkItem (snd po) (rdn_at hA (fst (fst po))) d (ents hA LA) (wanted (dn_at hA (fst (fst po))))).
    set (ita := fun y => mkItem (add_list depth y) (rdn_at hB y) (dn_at hB b) (fun _ => False) (wanted (dn_at hB y))).
    set (itd := fun x => mkItem (del_list depth x) (rdn_at hA x) d (ents hA LA) (fun _ => False)).
    set (items := map itc (combine (combine xs ys) opss) ++ map ita ac ++ map itd dc).
    assert (Lo : length opss = length (combine xs ys)) by (symmetry; eapply Forall2_len; exact Fo).
    destruct (combine_maps (combine xs ys) opss (eq_sym Lo)) as (Mp & Ms).
    assert (PO : forall po, In po (combine (combine xs ys) opss) -> In (fst po) (combine xs ys) /\
      diff_tree lower hash_pair hash_tuple depth n hA (fst (fst po)) hB (snd (fst po)) = Ok (snd po)).
    { intros po J. split; [rewrite <- Mp; now apply in_map|]. clear - Fo J. induction Fo as [|p o l m E F IHF]; [destruct J|]. cbn [combine] in J. destruct J as [<-|J]; auto. }
    assert (RDS : map x_rd items = com ++ add ++ del).
    { unfold items. rewrite !map_app, !map_map. cbn [itc ita itd x_rd]. rewrite <- Ex, <- Eac, <- Edc. f_equal.
      rewrite <- (proj1 Mfst) at 2. rewrite <- Mp at 2. rewrite !map_map. reflexivity. }
    assert (DNS : forall y, In y items -> (exists k, In k (kids hA a) /\ x_dn y = dn_at hA k) \/ (exists k, In k ac /\ x_dn y = dn_at hB k)).
    { intros y J. unfold items in J. rewrite !in_app_iff in J. destruct J as [J|[J|J]]; apply in_map_iff in J as (z & <- & J).
      - left. apply PO in J as (J & _). destruct (PR _ J) as (J1 & _). exists (fst (fst z)). split; [exact J1|]. symmetry. apply (kid_dn_at rt hA LA IA a _ Ia J1).
      - right. exists z. split; [exact J|]. symmetry. apply (kid_dn_at rtB hB LB IB b _ Ib (Kac z J)).
      - left. exists z. split; [exact (Kdc z J)|]. symmetry. apply (kid_dn_at rt hA LA IA a _ Ia (Kdc z J)). }
    assert (LEN : forall y, In y items -> length (x_dn y) = S (length d)).
    { intros y J. apply same_len in Sab. destruct (DNS y J) as [(k & K & ->)|(k & K & ->)].
      - rewrite (proj1 (kid_dn_at rt hA LA IA a k Ia K)). reflexivity.
      - rewrite (proj1 (kid_dn_at rtB hB LB IB b k Ib (Kac k K))). cbn [length]. fold d in Sab. now rewrite <- Sab. }
    assert (UP : forall y e, In y items -> intree (x_dn y) (e_dn e) -> intree d (e_dn e)).
    { intros y e J Hy. eapply intree_trans; [|exact Hy]. destruct (DNS y J) as [(k & K & ->)|(k & K & ->)].
      - rewrite (proj1 (kid_dn_at rt hA LA IA a k Ia K)). apply intree_cons.
      - rewrite (proj1 (kid_dn_at rtB hB LB IB b k Ib (Kac k K))). eapply intree_trans; [apply intree_same, Sab|apply intree_cons]. }
    assert (NSELF : forall y e, In y items -> same (e_dn e) d -> ~ intree (x_dn y) (e_dn e)).
    { intros y e J S Hy. apply intree_len in Hy. rewrite (LEN y J) in Hy. apply same_len in S. lia. }
    (* every child of [a] has its region listed *)
    assert (COVA : forall k, In k (kids hA a) -> exists y, In y items /\ x_dn y = dn_at hA k).
    { intros k K. assert (Jm : In (rdn_at hA k) my) by (unfold my; now apply in_map).
      assert (J : In (rdn_at hA k) (com ++ del)).
      { apply in_app_iff. destruct (in_dec rdn_dec (rdn_at hA k) his) as [Jh|Jh]; [left; apply Icom|right; apply Idel]; auto. }
      apply in_app_iff in J as [J|J].
      - rewrite <- Ex in J. apply in_map_iff in J as (x & E & J). rewrite <- (proj1 Mfst), <- Mp in J. rewrite map_map in J. apply in_map_iff in J as (po & <- & J).
        exists (itc po). split; [unfold items; apply in_or_app; left; now apply in_map|]. unfold x_dn. cbn [itc x_rd x_up]. rewrite E. symmetry. apply (kid_dn_at rt hA LA IA a k Ia K).
      - rewrite <- Edc in J. apply in_map_iff in J as (x & E & J).
        exists (itd x). split; [unfold items; rewrite !in_app_iff; right; right; now apply in_map|]. unfold x_dn. cbn [itd x_rd x_up]. rewrite E. symmetry. apply (kid_dn_at rt hA LA IA a k Ia K). }
    assert (COVB : forall k, In k (kids hB b) -> exists y, In y items /\ same (x_dn y) (dn_at hB k) /\ forall e, ents hB LB e -> intree (dn_at hB k) (e_dn e) -> x_B y e).
    { intros k K. assert (Jh : In (rdn_at hB k) his) by (unfold his; now apply in_map). destruct (kid_dn_at rtB hB LB IB b k Ib K) as (Ek & _).
      destruct (in_dec rdn_dec (rdn_at hB k) my) as [Jm|Jm].
      - assert (J : In (rdn_at hB k) com) by (apply Icom; auto). rewrite <- Ex in J. apply in_map_iff in J as (x & E & J). rewrite <- (proj1 Mfst), <- Mp in J. rewrite map_map in J. apply in_map_iff in J as (po & <- & J).
        pose proof (PO po J) as (J' & _). destruct (PR _ J') as (J1 & _).
        assert (S : same (dn_at hA (fst (fst po))) (dn_at hB k)) by (apply KidSame; auto).
        exists (itc po). split; [unfold items; apply in_or_app; left; now apply in_map|].
        split; [unfold x_dn; cbn [itc x_rd x_up]; unfold d; rewrite <- (proj1 (kid_dn_at rt hA LA IA a _ Ia J1)); exact S|].
        intros e Ee He. cbn [itc x_B]. split; [exact Ee|]. eapply intree_trans; [apply intree_same, S|exact He].
      - assert (J : In (rdn_at hB k) add) by (apply Iadd; auto). rewrite <- Eac in J. apply in_map_iff in J as (x & E & J).
        assert (x = k) as ->.
        { apply (siblings lower C CC rtB hB LB IB b x k Ib (Kac x J) K). rewrite (proj1 (kid_dn_at rtB hB LB IB b x Ib (Kac x J))), Ek, E. apply same_refl. }
        exists (ita k). split; [unfold items; rewrite !in_app_iff; right; left; now apply in_map|].
        split; [unfold x_dn; cbn [ita x_rd x_up]; rewrite <- Ek; apply same_refl|]. intros e Ee He. cbn [ita x_B]. split; auto. }
    destruct (xforms lower oc_first depth C CI rt like tr d items) with (h := h1) (L := L) as (h2 & L2 & D2 & I2 & OUT & INN & COV).
    - apply Forall_forall. intros y J. pose proof (DNS y J) as DY. unfold items in J. rewrite !in_app_iff in J. destruct J as [J|[J|J]]; apply in_map_iff in J as (z & <- & J).
      + destruct (PO z J) as (J' & Dz). destruct (PR _ J') as (J1 & J2 & E). destruct (kid_dn_at rt hA LA IA a _ Ia J1) as (Ek & Ck).
        destruct (IH (fst (fst z)) (snd (fst z))) as (o & Ho & _ & X); [apply (kid_facts rt hA LA IA a _ Ia J1)|apply (kid_facts rtB hB LB IB b _ Ib J2)|auto|auto|].
        rewrite Dz in Ho. apply Ok_inj in Ho. subst o. unfold x_dn. cbn [itc x_ops x_rd x_up x_A x_B]. unfold d at 1. rewrite <- Ek. split; [exact X|]. split; [exact Ck|apply same_refl].
      + destruct (kid_dn_at rtB hB LB IB b z Ib (Kac z J)) as (Ek & Ck). unfold x_dn. cbn [ita x_ops x_rd x_up x_A x_B]. rewrite <- Ek.
        split; [|split; [exact Ck|now apply same_sym]]. apply (add_xform depth z b Ib (Kac z J)). intros c Ic _. pose proof (SB c Ic) as X. rewrite <- dlen_at in X. lia.
      + destruct (kid_dn_at rt hA LA IA a z Ia (Kdc z J)) as (Ek & Ck). unfold x_dn. cbn [itd x_ops x_rd x_up x_A x_B]. unfold d at 1. rewrite <- Ek.
        split; [|split; [exact Ck|apply same_refl]]. apply (del_xform depth z a Ia (Kdc z J)). intros c Ic _. pose proof (SA c Ic) as X. rewrite <- dlen_at in X. lia.
    - rewrite RDS. exact NDall.
    - exact I1.
    - exists e1. split; [apply E1; now right|]. rewrite De1. apply same_refl.
    - intros y J e Hy. assert (X1 : ents h1 L e <-> ents hA LA e).
      { rewrite E1. pose proof (HA e (UP y e J Hy)) as X. split.
        - intros [(X' & _)| ->]; [now apply X|]. exfalso. apply (NSELF y e1 J); [rewrite De1; apply same_refl|exact Hy].
        - intros X'. left. split; [now apply X|]. intros S. exact (NSELF y e J S Hy). }
      rewrite X1. unfold items in J. rewrite !in_app_iff in J. destruct J as [J|[J|J]]; apply in_map_iff in J as (z & <- & J); cbn [itc ita itd x_A]; try reflexivity.
      split; [|intros []]. intros Ee. unfold x_dn in Hy. cbn [ita x_rd x_up] in Hy. destruct (kid_dn_at rtB hB LB IB b z Ib (Kac z J)) as (Ek & Ck). rewrite <- Ek in Hy.
      assert (Hd : intree d (e_dn e)).
      { eapply intree_trans; [|exact Hy]. rewrite Ek. eapply intree_trans; [apply intree_same, Sab|apply intree_cons]. }
      destruct (split_region rt hA LA IA a e Ia Ee Hd) as [->|(k & K & Hk)].
      + apply intree_len in Hy. rewrite Ek in Hy. fold ea in Hy. rewrite Da in Hy. apply same_len in Sab. cbn [length] in Hy. lia.
      + destruct (kid_dn_at rt hA LA IA a k Ia K) as (Ek' & Ck'). assert (S : same (dn_at hA k) (dn_at hB z)).
        { apply (intree_same_len lower _ _ (e_dn e)); auto. rewrite Ek, Ek'. cbn [length]. f_equal. exact (same_len lower _ _ Sab). }
        rewrite Ek, Ek' in S. apply same_cons in S as (S & _). apply (CI _ _ Ck' Ck) in S.
        assert (J2 : In (rdn_at hB z) add) by (rewrite <- Eac; now apply in_map). apply Iadd in J2 as (_ & J2). apply J2. rewrite <- S. unfold my. now apply in_map.
    - exists h2, L2. split; [|split; [exact I2|]].
      { eapply done_app; [exact D1|]. unfold items in D2. rewrite !map_app, !concat_app, !map_map in D2. cbn [itc ita itd x_ops] in D2. change (map (fun x : ref * ref * list top => snd x) (combine (combine xs ys) opss)) with (map snd (combine (combine xs ys) opss)) in D2. rewrite Ms in D2. exact D2. }
      split; [|split].
      + intros e NI. rewrite OUT by (intros y J Hy; apply NI; eapply UP; eauto). rewrite E1. split.
        * intros [(X & _)| ->]; [exact X|]. exfalso. apply NI. rewrite De1. apply intree_same, same_refl.
        * intros X. left. split; [exact X|]. intros S. apply NI. now apply intree_same, same_sym.
      + intros e Hd Ee. destruct (in_some lower items (e_dn e)) as [(y & J & Hy)|NI].
        * destruct (INN y J e Hy Ee) as (f & X & Lf). exists f. split; [|exact Lf].
          unfold items in J. rewrite !in_app_iff in J. destruct J as [J|[J|J]]; apply in_map_iff in J as (z & <- & J); cbn [itc ita itd x_B] in X.
          -- destruct X as (X1 & X2). split; [exact X1|]. destruct (PO z J) as (J' & _). destruct (PR _ J') as (J1 & _).
             eapply intree_trans; [|exact X2]. rewrite (proj1 (kid_dn_at rt hA LA IA a _ Ia J1)). apply intree_cons.
          -- destruct X as (X1 & X2). split; [exact X1|]. eapply intree_trans; [|exact X2]. rewrite (proj1 (kid_dn_at rtB hB LB IB b z Ib (Kac z J))).
             eapply intree_trans; [apply intree_same, Sab|apply intree_cons].
          -- destruct X.
        * apply (OUT e NI) in Ee. apply E1 in Ee as [(X & NS)| ->].
          -- exfalso. apply HA in X; [|exact Hd]. destruct (split_region rt hA LA IA a e Ia X Hd) as [->|(k & K & Hk)].
             ++ apply NS. fold ea. rewrite Da. apply same_refl.
             ++ destruct (COVA k K) as (y & J & Ey'). apply (NI y J). now rewrite Ey'.
          -- exists eb. split; [|exact Lk1]. split; [exact Eb|]. rewrite Db. apply intree_same, Sab.
      + intros f (Ef & Hf). assert (Hfb : intree (dn_at hB b) (e_dn f)) by (eapply intree_trans; [apply intree_same, same_sym, Sab|exact Hf]).
        destruct (split_region rtB hB LB IB b f Ib Ef Hfb) as [->|(k & K & Hk)].
        * exists e1. rewrite De1. split; [apply intree_same, same_refl|]. split; [|exact Lk1]. apply OUT; [|apply E1; now right].
          intros y J. apply NSELF; [exact J|]. rewrite De1. apply same_refl.
        * destruct (COVB k K) as (y & J & Sy & By). destruct (COV y J f (By f Ef Hk)) as (e & He & Ee & Le). exists e. split; [eapply UP; eauto|auto].
  Qed.
End Diff.
