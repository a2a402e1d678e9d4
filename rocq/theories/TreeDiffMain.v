(** The tree difference as a whole (C23). *)
From Coq Require Import Permutation.
From Verif Require Import Base BaseFacts Utf8Model DnModel DnSpec DnProofs EntryModel EntrySpec EntryProofs SortFacts DiffProofs LdapSpec MatchModel LdifModel LdifRound InmemModel InmemSpec InmemProofs InmemHist ServerModel ServerSearch SyntaxSpec SyntaxProofs TreeDiffModel TreeDiffSpec TreeDiffSteps TreeDiffProofs.

(** ** Copying an entry *)
Section Copy.
  Variable lower : str -> str.
  Variable oc_first : bool.
  Hypothesis lower_std : forall s, ascii s -> lower s = ascii_lower s.

  Lemma copy_holds kt vt e l d : ent_ok lower kt vt e -> items lower oc_first e = Ok l ->
    ent_ok lower kt vt (new_entry lower d l) /\ forall k v, holds lower (new_entry lower d l) k v <-> holds lower e k v.
  Proof.
    intros O H. split; [exact (proj1 (copy_entry lower oc_first lower_std kt vt e l d O H))|]. intros k v.
    rewrite (proj2 (new_entry_spec lower d l k v)). symmetry. exact (items_all lower oc_first lower_std kt vt e l O H k v).
  Qed.
  Lemma copy_keys kt vt e l d : ent_ok lower kt vt e -> proper lower e -> items lower oc_first e = Ok l ->
    forall k, In k (keys_of (new_entry lower d l)) <-> In k (keys_of e).
  Proof.
    intros O PR H. assert (TO : forall k, In k (keys_of (new_entry lower d l)) -> In k (keys_of e)).
    { intros k J. unfold keys_of, new_entry in J. cbn [e_attrs] in J. rewrite map_map in J. apply in_map_iff in J as (a & <- & J). cbn [s_key].
      destruct (init_loop_ok lower l [] (NoDup_nil _)) as (_ & X). destruct (X a J) as [(a0 & [] & _)|(vs & J1 & _)].
      destruct (items_sound_key lower oc_first e l H _ _ J1) as (b & Jb & [-> |K] & _); [unfold keys_of; now apply in_map|].
      destruct (items_sound lower oc_first e l H _ _ J1) as (c & Jc & Lc & _). destruct (PR c Jc) as (_ & P1 & P2).
      assert (s_key a = s_key c) as ->; [|unfold keys_of; now apply in_map].
      assert (KO : s_key a = PStr (S_ "objectClass") \/ s_key a = PBytes (B "objectClass")) by (unfold oc_keys in K; destruct oc_first; cbn [In] in K; intuition).
      destruct KO as [E|E]; rewrite E in *; symmetry; [apply P1|apply P2]; auto. }
    intros k. split; [apply TO|]. intros J. unfold keys_of in J. apply in_map_iff in J as (a & <- & Ja). destruct (PR a Ja) as (NE & _).
    destruct (items_complete lower oc_first (lower_oc lower lower_std) e l (proj2 (proj1 O)) H a Ja NE) as (k' & vs & I' & L' & _).
    assert (HS : has lower (new_entry lower d l) k') by (apply (new_entry_spec lower d l k' k'); exists k', vs; auto).
    destruct HS as (x & Jx & Lx). assert (Kx : In (s_key x) (keys_of (new_entry lower d l))) by (unfold keys_of; now apply in_map).
    replace (s_key a) with (s_key x); [exact Kx|]. apply TO in Kx. unfold keys_of in Kx. apply in_map_iff in Kx as (y & Ey & Jy).
    rewrite <- Ey. f_equal. apply (lowkeys_inj lower (e_attrs e)); auto; [exact (proj2 (proj1 O))|]. rewrite Ey, Lx, L'. reflexivity.
  Qed.
End Copy.

Section Places.
  Variable lower : str -> str.
  Variable C : rdn -> Prop.
  Hypothesis CC : consistent lower C.
  Notation same := (same_dn lower).
  Notation intree := (in_tree lower).

  Lemma below_region rt h L : inv C rt h L -> forall x e, In x L -> (entry_below h x e <-> ents h L e /\ intree (dn_at h x) (e_dn e)).
  Proof.
    intros I x e Ix. pose proof (i_tree C rt h L I) as T. split.
    - intros (c & Bc & n & N & <-). pose proof (below_in h L T x c Bc Ix) as Ic. split; [exists c; split; [exact Ic|]; unfold ent_at; now rewrite N|].
      replace (e_dn (n_entry n)) with (dn_at h c) by (unfold dn_at; now rewrite N). clear N Ic n. revert Ix. induction Bc as [r|r y c K Bc IH]; intros Ir.
      + apply intree_same, same_refl.
      + pose proof (t_kids h L T r y Ir K) as Iy. destruct (dn_at_kid C rt h L I r y Ir K) as (rd & E & _). eapply intree_trans; [|exact (IH Iy)]. rewrite E. apply intree_cons.
    - intros ((c & Ic & <-) & Hx). rewrite dn_at_ent in Hx. destruct (t_node h L T c Ic) as (n & N).
      exists c. split; [|exists n; split; [exact N|unfold ent_at; now rewrite N]]. clear n N.
      remember (dlen h c - dlen h x)%nat as m eqn:Em. revert x Ix Hx Em. induction m as [m IH] using lt_wf_ind. intros x Ix Hx Em.
      destruct (ancestor lower h L T (siblings lower C CC rt h L I) x c Ix Ic Hx) as [->|(k & K & Hk)]; [constructor|].
      pose proof (t_kids h L T x k Ix K) as Ik. pose proof (dlen_kid h L T x k Ix K) as DK. apply (below_step h x k c K).
      pose proof (intree_len lower _ _ Hk) as LK. rewrite <- !dlen_at in LK. apply (IH (dlen h c - dlen h k)%nat); auto. lia.
  Qed.

  Lemma root_region rt0 h L : inv C rt0 h L -> forall e, entry_below h 0%nat e <-> ents h L e.
  Proof.
    intros I e. pose proof (i_tree C rt0 h L I) as T. rewrite (below_region rt0 h L I 0%nat e (t_root h L T)). split; [tauto|]. intros X. split; [exact X|].
    destruct X as (c & Ic & <-). rewrite dn_at_ent. exact (root_intree lower h L T c Ic).
  Qed.
End Places.

(** Operations that become others, with the same effect up to [like], before they are applied. *)
Section Via.
  Variable lower : str -> str.
  Variable oc_first : bool.
  Variable hash_pair : str * str -> Z.
  Variable hash_tuple : list Z -> Z.
  Variable depth : nat.
  Variable C : rdn -> Prop.
  Hypothesis CC : consistent lower C.
  Hypothesis CI : forall a b, C a -> C b -> rdn_eqb lower a b = true -> a = b.
  Notation same := (same_dn lower).
  Notation intree := (in_tree lower).
  Variable like : entry -> entry -> Prop.
  Hypothesis like_dn : forall e f, like e f -> same (e_dn e) (e_dn f).
  Variable tr : top -> top.
  Variables (rt rtB : dn) (hA hB : heap) (LA LB : list ref).
  Hypothesis IA : inv C rt hA LA.
  Hypothesis IB : inv C rtB hB LB.
  Hypothesis SA : forall e, entry_below hA 0%nat e -> (length (e_dn e) < depth)%nat.
  Hypothesis SB : forall e, entry_below hB 0%nat e -> (length (e_dn e) < depth)%nat.
  Hypothesis VC : forall f d, entry_below hB 0%nat f -> same d (e_dn f) ->
    exists f' its, tr (TAdd f) = TAdd f' /\ e_dn f' = e_dn f /\ items lower oc_first f' = Ok its /\ like (new_entry lower d its) f.
  Hypothesis VD : forall e, entry_below hA 0%nat e -> tr (TDelete (e_dn e)) = TDelete (e_dn e).
  Hypothesis VM : forall e f, entry_below hA 0%nat e -> entry_below hB 0%nat f -> same (e_dn e) (e_dn f) ->
    (diff lower e f = Ok None /\ like e f) \/
    exists ms ms' e', diff lower e f = Ok (Some ms) /\ tr (TModify (e_dn e) ms) = TModify (e_dn e) ms' /\
      patch_all lower ms' e = (e', Ok tt) /\ e_dn e' = e_dn e /\ like e' f.
  Notation root_region := (root_region lower C CC).
  Notation below_region := (below_region lower C CC).

  (** For any two entries with equal DNs. *)
  Lemma tree_diff_via a b ea eb : below hA 0%nat a -> below hB 0%nat b -> entry_at hA a ea -> entry_at hB b eb -> same (e_dn ea) (e_dn eb) ->
    exists ops h' os a' L', diff_tree lower hash_pair hash_tuple depth depth hA a hB b = Ok ops /\ Forall (came lower hA hB LA LB) ops /\
      patch_ops lower oc_first depth 0%nat (map tr ops) hA = (h', os) /\ Forall (eq (Ok tt)) os /\
      inv C rt h' L' /\ below h' 0%nat a' /\ (exists e', entry_at h' a' e' /\ same (e_dn e') (e_dn ea)) /\
      same_entries like h' a' hB b /\
      forall e, ~ intree (e_dn ea) (e_dn e) -> (entry_below h' 0%nat e <-> entry_below hA 0%nat e).
  Proof.
    intros Ba Bb (na & Na & Ena) (nb & Nb & Enb) S. pose proof (i_tree C rt hA LA IA) as TA. pose proof (i_tree C rtB hB LB IB) as TB.
    pose proof (below_in hA LA TA 0%nat a Ba (t_root hA LA TA)) as Ia. pose proof (below_in hB LB TB 0%nat b Bb (t_root hB LB TB)) as Ib.
    assert (Da : dn_at hA a = e_dn ea) by (unfold dn_at; rewrite Na; unfold n_dn; now rewrite Ena).
    assert (Db : dn_at hB b = e_dn eb) by (unfold dn_at; rewrite Nb; unfold n_dn; now rewrite Enb).
    assert (SA' : forall r, In r LA -> (length (dn_at hA r) < depth)%nat).
    { intros r Ir. rewrite <- dn_at_ent. apply SA. apply (root_region rt hA LA IA). exists r. auto. }
    assert (SB' : forall r, In r LB -> (length (dn_at hB r) < depth)%nat).
    { intros r Ir. rewrite <- dn_at_ent. apply SB. apply (root_region rtB hB LB IB). exists r. auto. }
    destruct (diff_xform lower oc_first hash_pair hash_tuple depth C CC CI rt rtB like tr hA hB LA LB IA IB SA' SB') with (n := depth) (a := a) (b := b) as (ops & D & Cm & X); auto.
    { intros f d E Sd. apply VC; [|exact Sd]. now apply (root_region rtB hB LB IB). }
    { intros e E. apply VD. now apply (root_region rt hA LA IA). }
    { intros e f E F Sd. apply VM; [now apply (root_region rt hA LA IA)|now apply (root_region rtB hB LB IB)|exact Sd]. }
    { now rewrite Da, Db. }
    { intros c Ic _. specialize (SA' c Ic). rewrite <- dlen_at in SA'. lia. }
    destruct (X hA LA IA) as (h' & L' & (os & P & F) & I' & OUT & INN & COV).
    { intros NR. destruct (Nat.eq_dec a 0) as [->|Nz].
      - exfalso. apply NR. destruct (i_root C rt hA LA IA) as (n0 & N0 & _ & D0). unfold dn_at. rewrite N0, D0. apply same_refl.
      - destruct (t_up hA LA TA a Ia Nz) as (p & Ip & Kp). destruct (dn_at_kid C rt hA LA IA p a Ip Kp) as (rd & E & _). rewrite E. unfold dn_up. cbn [tl].
        exists (ent_at hA p). split; [exists p; auto|]. rewrite dn_at_ent. apply same_refl. }
    { intros e _. reflexivity. }
    pose proof (i_tree C rt h' L' I') as T'.
    destruct (COV eb) as (e' & He' & Ee' & Le').
    { split; [exists b; split; [exact Ib|unfold ent_at; now rewrite Nb]|]. rewrite Da. now apply intree_same. }
    destruct Ee' as (a' & Ia' & Ea').
    assert (Sa' : same (dn_at h' a') (dn_at hA a)).
    { rewrite <- dn_at_ent, Ea', Da. eapply same_trans; [exact (like_dn _ _ Le')|now apply same_sym]. }
    exists ops, h', os, a', L'. split; [exact D|]. split; [exact Cm|]. split; [exact P|]. split; [exact F|]. split; [exact I'|]. split; [exact (root_below h' L' T' a' Ia')|].
    split; [|split].
    - exists e'. split; [|rewrite <- Da; rewrite <- Ea', dn_at_ent; exact Sa']. destruct (t_node h' L' T' a' Ia') as (n & N). exists n. split; [exact N|]. rewrite <- Ea'. unfold ent_at. now rewrite N.
    - split.
      + intros e E. apply (below_region rt h' L' I' a' e Ia') in E as (E1 & E2). destruct (INN e) as (f & (F1 & F2) & Lf); [eapply intree_trans; [apply intree_same, same_sym, Sa'|exact E2]|exact E1|].
        exists f. split; [|exact Lf]. apply (below_region rtB hB LB IB b f Ib). split; [exact F1|]. eapply intree_trans; [|exact F2]. apply intree_same. rewrite Da, Db. now apply same_sym.
      + intros f Ff. apply (below_region rtB hB LB IB b f Ib) in Ff as (F1 & F2). destruct (COV f) as (e & E1 & E2 & Lf).
        { split; [exact F1|]. eapply intree_trans; [|exact F2]. apply intree_same. now rewrite Da, Db. }
        exists e. split; [|exact Lf]. apply (below_region rt h' L' I' a' e Ia'). split; [exact E2|]. eapply intree_trans; [apply intree_same, Sa'|exact E1].
    - intros e NI. rewrite <- Da in NI. rewrite (root_region rt h' L' I'), (root_region rt hA LA IA). apply OUT, NI.
  Qed.
End Via.

Section Main.
  Variable lower : str -> str.
  Variable oc_first : bool.
  Variable hash_pair : str * str -> Z.
  Variable hash_tuple : list Z -> Z.
  Variable depth : nat.
  Hypothesis lower_std : forall s, ascii s -> lower s = ascii_lower s.
  Variable C : rdn -> Prop.
  Hypothesis CC : consistent lower C.
  Hypothesis CI : forall a b, C a -> C b -> rdn_eqb lower a b = true -> a = b.
  Notation same := (same_dn lower).
  Notation intree := (in_tree lower).

  (** When the patched entry counts as the target; with [K], entries compare equal. *)
  Variable K : Prop.
  Definition like (e f : entry) : Prop := alike lower e f /\ (K -> entry_eq lower e f = Ok true).

  Variables (rt rtB : dn) (hA hB : heap) (LA LB : list ref).
  Hypothesis IA : inv C rt hA LA.
  Hypothesis IB : inv C rtB hB LB.
  Hypothesis SA : forall e, entry_below hA 0%nat e -> (length (e_dn e) < depth)%nat.
  Hypothesis SB : forall e, entry_below hB 0%nat e -> (length (e_dn e) < depth)%nat.
  Hypothesis HAB : forall e f, entry_below hA 0%nat e -> entry_below hB 0%nat f -> same (e_dn e) (e_dn f) -> comparable lower e f.
  Hypothesis HB : forall f, entry_below hB 0%nat f -> copyable lower f.
  Hypothesis K1 : K -> forall e f, entry_below hA 0%nat e -> entry_below hB 0%nat f -> same (e_dn e) (e_dn f) -> forall k, In k (keys_of e) -> In k (keys_of f).
  Hypothesis K2 : K -> forall f, entry_below hB 0%nat f -> proper lower f.

  Lemma copy_like f d : entry_below hB 0%nat f -> same d (e_dn f) -> exists its, items lower oc_first f = Ok its /\ like (new_entry lower d its) f.
  Proof.
    intros E S. destruct (HB f E) as (kt & vt & O). destruct (items_total lower oc_first kt vt f (proj1 O)) as (its & Its).
    exists its. split; [exact Its|]. destruct (copy_holds lower oc_first lower_std kt vt f its d O Its) as (O' & H). split; [split; [exact S|exact H]|].
    intros k. destruct (entry_eq_spec lower kt vt (new_entry lower d its) f (proj1 O') (proj1 O)) as (r & -> & R). f_equal. apply R.
    split; [now apply dn_eqb_spec|]. split; [|exact H]. apply (copy_keys lower oc_first lower_std kt vt f its d O (K2 k f E) Its).
  Qed.
  Lemma diff_like e f : entry_below hA 0%nat e -> entry_below hB 0%nat f -> same (e_dn e) (e_dn f) ->
    (diff lower e f = Ok None /\ like e f) \/
    exists ms e', diff lower e f = Ok (Some ms) /\ patch_all lower ms e = (e', Ok tt) /\ e_dn e' = e_dn e /\ like e' f.
  Proof.
    intros Ee Ef S. destruct (HAB e f Ee Ef S) as (kt & vt & Oe & Of & Sp). pose proof (proj2 (dn_eqb_spec lower _ _) S) as Dq.
    destruct (diff_patch lower kt vt e f Oe Of Sp Dq) as [(e0 & D & Q & _)|(ms & e' & D & Q & Pt & O' & Dn & H & _ & EQ)].
    - left. split; [exact D|]. destruct (entry_eq_spec lower kt vt e f Oe Of) as (r & E & R). rewrite Q in E. apply Ok_inj in E. subst r.
      destruct (proj1 R eq_refl) as (_ & _ & H). split; [split; [exact S|exact H]|auto].
    - right. exists ms, e'. split; [exact D|]. split; [exact Pt|]. split; [exact Dn|]. split; [split; [now rewrite Dn|exact H]|].
      intros k. apply EQ. exact (K1 k e f Ee Ef S).
  Qed.

  (** For any two entries with equal DNs. *)
  Lemma tree_diff a b ea eb : below hA 0%nat a -> below hB 0%nat b -> entry_at hA a ea -> entry_at hB b eb -> same (e_dn ea) (e_dn eb) ->
    exists ops h' os a' L', diff_tree lower hash_pair hash_tuple depth depth hA a hB b = Ok ops /\
      patch_ops lower oc_first depth 0%nat ops hA = (h', os) /\ Forall (eq (Ok tt)) os /\
      inv C rt h' L' /\ below h' 0%nat a' /\ (exists e', entry_at h' a' e' /\ same (e_dn e') (e_dn ea)) /\
      same_entries like h' a' hB b /\
      forall e, ~ intree (e_dn ea) (e_dn e) -> (entry_below h' 0%nat e <-> entry_below hA 0%nat e).
  Proof.
    intros Ba Bb Ea Eb S.
    destruct (tree_diff_via lower oc_first hash_pair hash_tuple depth C CC CI like (fun e f L => proj1 (proj1 L)) (fun op => op) rt rtB hA hB LA LB IA IB SA SB)
      with (a := a) (b := b) (ea := ea) (eb := eb) as (ops & h' & os & a' & L' & D & _ & P & R); auto.
    { intros f d E Sd. destruct (copy_like f d E Sd) as (its & X & Y). exists f, its. auto. }
    { intros e f E F Sd. destruct (diff_like e f E F Sd) as [X|(ms & e' & X & Y)]; [left; exact X|right]. exists ms, ms, e'. auto. }
    rewrite map_id in P. exists ops, h', os, a', L'. split; [exact D|]. split; [exact P|exact R].
  Qed.
End Main.
