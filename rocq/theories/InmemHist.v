(** Proofs about histories of the in-memory directory. *)
From Verif Require Import Base BaseFacts Utf8Model DnModel DnSpec DnProofs EntryModel LdapSpec MatchModel InmemModel InmemSpec InmemProofs.

Section Dn.
  Variable lower : str -> str.
  Notation same := (same_dn lower).
  Notation intree := (in_tree lower).

  Lemma same_refl a : same a a. Proof. exact (proj1 (same_dn_equiv lower) a). Qed.
  Lemma same_sym a b : same a b -> same b a. Proof. exact (proj1 (proj2 (same_dn_equiv lower)) a b). Qed.
  Lemma same_trans a b c : same a b -> same b c -> same a c. Proof. exact (proj2 (proj2 (same_dn_equiv lower)) a b c). Qed.
  Lemma same_len a b : same a b -> length a = length b. Proof. apply Forall2_len. Qed.
  Lemma intree_same a b : same a b -> intree a b.
  Proof. intros S. exists [], b. auto. Qed.
  Lemma intree_trans a b c : intree a b -> intree b c -> intree a c.
  Proof.
    intros A B0. apply contains_spec in A, B0. apply contains_spec. destruct (contains_order lower) as (_ & _ & X & _). eauto.
  Qed.
  Lemma intree_len a b : intree a b -> (length a <= length b)%nat.
  Proof. intros (p & s & -> & S). apply same_len in S. rewrite app_length. lia. Qed.
  Lemma intree_same_len a b d : intree a d -> intree b d -> length a = length b -> same a b.
  Proof.
    intros (p & s & -> & S) (q & t & E & U) L. apply same_len in S as L1. apply same_len in U as L2.
    assert (length p = length q) by (apply (f_equal (@length rdn)) in E; rewrite !app_length in E; lia).
    assert (s = t) as <-.
    { clear - E H. revert q E H. induction p; destruct q; cbn; intros; try discriminate; [exact E|]. injection E as _ E. eauto. }
    eapply same_trans; [exact S|now apply same_sym].
  Qed.
  Lemma intree_tail a r d : intree a (r :: d) -> same a (r :: d) \/ intree a d.
  Proof.
    intros (p & s & E & S). destruct p as [|x p]; cbn in E.
    - left. now rewrite E.
    - injection E as _ ->. right. exists p, s. auto.
  Qed.
  Lemma intree_cons r d : intree d (r :: d).
  Proof. exists [r], d. split; [reflexivity|apply same_refl]. Qed.
  Lemma same_cons r d r' d' : same (r :: d) (r' :: d') <-> rdn_eqb lower r r' = true /\ same d d'.
  Proof.
    rewrite rdn_eqb_spec. split; [intros H; inversion H; auto|intros (A & C); constructor; auto].
  Qed.
End Dn.

Definition dn_at (h : heap) (r : ref) : dn := match nth_error h r with Some n => n_dn n | None => [] end.

(** ** Looking up in a tree *)
Section Look.
  Variable lower : str -> str.
  Notation same := (same_dn lower).
  Notation intree := (in_tree lower).
  Variables (h : heap) (L : list ref).
  Hypothesis T : tree h L.
  Hypothesis SIB : forall r x y, In r L -> In x (kids h r) -> In y (kids h r) -> same (dn_at h x) (dn_at h y) -> x = y.

  Lemma kid_dn r c : In r L -> In c (kids h r) -> exists rd, dn_at h c = rd :: dn_at h r.
  Proof.
    intros Ir K. destruct (t_node h L T r Ir) as (n & N). pose proof (t_kids h L T r c Ir K) as Ic. destruct (t_node h L T c Ic) as (m & M).
    destruct (t_dn h L T r c n m Ir K N M) as (rd & E). exists rd. unfold dn_at. now rewrite N, M.
  Qed.
  Lemma dlen_at r : dlen h r = length (dn_at h r).
  Proof. unfold dlen, dn_at. now destruct (nth_error h r). Qed.

  Lemma above_root r : In r L -> r <> 0%nat -> (dlen h 0 < dlen h r)%nat.
  Proof.
    intros Ir N. destruct (t_up h L T r Ir N) as (p & Ip & K). pose proof (dlen_kid h L T p r Ip K).
    pose proof (dlen_below h L T 0%nat p (t_root h L T) (root_below h L T p Ip)). lia.
  Qed.

  (** C33 *)
  Lemma unique0 a : forall b, In a L -> In b L -> same (dn_at h a) (dn_at h b) -> a = b.
  Proof.
    remember (dlen h a) as k eqn:Ek. revert a Ek. induction k as [k IH] using lt_wf_ind. intros a Ek b Ia Ib S.
    pose proof (same_len lower _ _ S) as Len. rewrite <- !dlen_at in Len.
    destruct (Nat.eq_dec a 0) as [->|Na]; destruct (Nat.eq_dec b 0) as [->|Nb]; try reflexivity.
    - pose proof (above_root b Ib Nb). lia.
    - pose proof (above_root a Ia Na). lia.
    - destruct (t_up h L T a Ia Na) as (p & Ip & Kp), (t_up h L T b Ib Nb) as (q & Iq & Kq).
      destruct (kid_dn p a Ip Kp) as (ra & Ea), (kid_dn q b Iq Kq) as (rb & Eb).
      pose proof (dlen_kid h L T p a Ip Kp). pose proof S as S'. rewrite Ea, Eb in S'. apply same_cons in S' as (_ & S').
      assert (p = q) as <- by (eapply (IH (dlen h p)); eauto; lia). eapply SIB; eauto.
  Qed.

  Lemma ancestor r c : In r L -> In c L -> intree (dn_at h r) (dn_at h c) ->
    c = r \/ exists x, In x (kids h r) /\ intree (dn_at h x) (dn_at h c).
  Proof.
    intros Ir. remember (dlen h c) as k eqn:Ek. revert c Ek. induction k as [k IH] using lt_wf_ind. intros c Ek Ic A.
    destruct (Nat.eq_dec c 0) as [->|Nc].
    - left. apply intree_len in A. rewrite <- !dlen_at in A. destruct (Nat.eq_dec r 0) as [->|Nr]; [reflexivity|].
      pose proof (above_root r Ir Nr). lia.
    - destruct (t_up h L T c Ic Nc) as (p & Ip & Kp). destruct (kid_dn p c Ip Kp) as (rc & Ec).
      pose proof (dlen_kid h L T p c Ip Kp) as Dp. pose proof A as A'. rewrite Ec in A'. apply intree_tail in A' as [S|A'].
      + left. apply unique0; auto. rewrite Ec. now apply same_sym.
      + destruct (IH (dlen h p) ltac:(lia) p eq_refl Ip A') as [->|(x & Kx & Ax)].
        * right. exists c. split; [exact Kp|]. apply intree_same, same_refl.
        * right. exists x. split; [exact Kx|]. rewrite Ec. eapply intree_trans; [exact Ax|apply intree_cons].
  Qed.

  Lemma at_node r : In r L -> exists n, nth_error h r = Some n /\ n_dn n = dn_at h r.
  Proof. intros Ir. destruct (t_node h L T r Ir) as (n & N). exists n. unfold dn_at. rewrite N. auto. Qed.

  Lemma lookup_found depth : forall r c d, In r L -> In c L -> same (dn_at h c) d -> intree (dn_at h r) d ->
    (length d - dlen h r < depth)%nat -> lookup lower depth h r d = Ok c.
  Proof.
    induction depth as [|depth IH]; intros r c d Ir Ic S A D; [lia|].
    destruct (at_node r Ir) as (n & N & En). cbn [lookup]. unfold deref at 1. rewrite N. cbn [bind]. rewrite En.
    rewrite (proj2 (contains_spec lower _ _) A). cbn [negb].
    destruct (dn_eqb lower d (dn_at h r)) eqn:Q.
    { apply dn_eqb_spec in Q. f_equal. symmetry. apply unique0; auto. eapply same_trans; eauto. }
    assert (A' : intree (dn_at h r) (dn_at h c)) by (eapply intree_trans; [exact A|]; apply intree_same; now apply same_sym).
    destruct (ancestor r c Ir Ic A') as [->|(x & Kx & Ax)].
    { apply same_sym, dn_eqb_spec in S. congruence. }
    assert (Ad : intree (dn_at h x) d) by (eapply intree_trans; [exact Ax|now apply intree_same]).
    assert (KD : kids h r = map snd (n_children n)) by (unfold kids; now rewrite N).
    assert (G : forall cs : list (str * ref), (forall y, In y (map snd cs) -> In y (kids h r)) -> In x (map snd cs) ->
      (fix try (cs : list (str * ref)) : res ref := match cs with [] => Err ENoSuchObject | (_, c) :: rest =>
         do m <- deref h c; if contains lower (n_dn m) d then lookup lower depth h c d else try rest end) cs = Ok c).
    { induction cs as [|(k & y) cs IHc]; intros Sub J; [destruct J|].
      assert (Ky : In y (kids h r)) by (apply Sub; now left). pose proof (t_kids h L T r y Ir Ky) as Iy.
      destruct (at_node y Iy) as (m & M & Em). unfold deref. rewrite M. cbn [bind]. rewrite Em.
      pose proof (dlen_kid h L T r y Ir Ky) as Dy. pose proof (dlen_kid h L T r x Ir Kx) as Dx.
      destruct (contains lower (dn_at h y) d) eqn:Cy.
      - apply contains_spec in Cy. pose proof (intree_len _ _ _ Cy) as Ly. rewrite <- dlen_at in Ly.
        apply IH; auto. lia.
      - apply IHc; [intros z Iz; apply Sub; now right|]. destruct J as [<-|J]; [|exact J].
        apply contains_spec in Ad. cbn [snd] in Ad. congruence. }
    apply G; [intros y J; now rewrite KD|now rewrite <- KD].
  Qed.

  Lemma lookup_none depth : forall r d, In r L -> (forall c, In c L -> ~ same (dn_at h c) d) ->
    (length d - dlen h r < depth)%nat -> lookup lower depth h r d = Err ENoSuchObject.
  Proof.
    induction depth as [|depth IH]; intros r d Ir X D; [lia|].
    destruct (at_node r Ir) as (n & N & En). cbn [lookup]. unfold deref at 1. rewrite N. cbn [bind]. rewrite En.
    destruct (contains lower (dn_at h r) d); [|reflexivity]. cbn [negb].
    destruct (dn_eqb lower d (dn_at h r)) eqn:Q.
    { apply dn_eqb_spec, same_sym in Q. exfalso. eapply X; eauto. }
    assert (KD : kids h r = map snd (n_children n)) by (unfold kids; now rewrite N).
    assert (G : forall cs : list (str * ref), (forall y, In y (map snd cs) -> In y (kids h r)) ->
      (fix try (cs : list (str * ref)) : res ref := match cs with [] => Err ENoSuchObject | (_, c) :: rest =>
         do m <- deref h c; if contains lower (n_dn m) d then lookup lower depth h c d else try rest end) cs = Err ENoSuchObject).
    { induction cs as [|(k & y) cs IHc]; intros Sub; [reflexivity|].
      assert (Ky : In y (kids h r)) by (apply Sub; now left). pose proof (t_kids h L T r y Ir Ky) as Iy.
      destruct (at_node y Iy) as (m & M & Em). unfold deref. rewrite M. cbn [bind]. rewrite Em.
      pose proof (dlen_kid h L T r y Ir Ky) as Dy.
      destruct (contains lower (dn_at h y) d) eqn:Cy.
      - apply contains_spec in Cy. pose proof (intree_len _ _ _ Cy) as Ly. rewrite <- dlen_at in Ly. apply IH; auto. lia.
      - apply IHc. intros z Iz. apply Sub. now right. }
    apply G. intros y J. now rewrite KD.
  Qed.
  (** An entry of the tree is below the root also by its DN. *)
  Lemma root_intree c : In c L -> intree (dn_at h 0%nat) (dn_at h c).
  Proof.
    intros Ic. pose proof (root_below h L T c Ic) as Bl. pose proof (t_root h L T) as Ir. revert Ir. induction Bl as [r|r x c K Bl IH]; intros Ir.
    - apply intree_same, same_refl.
    - pose proof (t_kids h L T r x Ir K) as Ix. destruct (kid_dn r x Ir K) as (rd & E). specialize (IH Ic Ix). rewrite E in IH.
      eapply intree_trans; [apply intree_cons|exact IH].
  Qed.
  Lemma lookup_root0 depth d : (length d < depth)%nat ->
    (forall c, In c L -> same (dn_at h c) d -> lookup lower depth h 0%nat d = Ok c) /\
    ((forall c, In c L -> ~ same (dn_at h c) d) -> lookup lower depth h 0%nat d = Err ENoSuchObject).
  Proof.
    intros D. split.
    - intros c Ic S. apply lookup_found; [apply (t_root h L T)|exact Ic|exact S| |lia].
      eapply intree_trans; [apply (root_intree c Ic)|now apply intree_same].
    - intros X. apply lookup_none; [apply (t_root h L T)|exact X|lia].
  Qed.
End Look.

Section Inv.
  Variable lower : str -> str.
  Variable C : rdn -> Prop.
  Hypothesis CC : consistent lower C.
  Notation same := (same_dn lower).
  Notation intree := (in_tree lower).

  Definition child_ok (h : heap) (r : ref) (x : str * ref) : Prop :=
    exists m rd rest, nth_error h (snd x) = Some m /\ n_dn m = rd :: rest /\ fst x = rdn_text rd /\ C rd /\ n_parent m = Some r.
  Record inv (rt : dn) (h : heap) (L : list ref) : Prop := {
    i_tree : tree h L;
    i_keys : forall r n, In r L -> nth_error h r = Some n -> Forall (child_ok h r) (n_children n) /\ NoDup (map fst (n_children n));
    i_root : exists n, nth_error h 0 = Some n /\ n_parent n = None /\ n_dn n = rt }.

  Section Facts.
    Variables (rt : dn) (h : heap) (L : list ref).
    Hypothesis I : inv rt h L.
    Let T := i_tree rt h L I.

    Lemma dn_at_kid r c : In r L -> In c (kids h r) -> exists rd, dn_at h c = rd :: dn_at h r /\ C rd /\
      exists n, nth_error h r = Some n /\ In (rdn_text rd, c) (n_children n).
    Proof.
      intros Ir K. destruct (t_node h L T r Ir) as (n & N). pose proof (t_kids h L T r c Ir K) as Ic. destruct (t_node h L T c Ic) as (m & M).
      destruct (t_dn h L T r c n m Ir K N M) as (rd & E). exists rd. unfold dn_at. rewrite N, M. split; [exact E|].
      destruct (i_keys rt h L I r n Ir N) as (F & _). unfold kids in K. rewrite N in K. apply in_map_iff in K as ((k & c') & <- & K). cbn [snd] in *.
      rewrite Forall_forall in F. specialize (F _ K) as (m' & rd' & rest & M' & E' & Ek & Crd & _). cbn [fst snd] in *.
      rewrite M in M'. injection M' as <-. rewrite E in E'. injection E' as <- <-. split; [exact Crd|]. exists n. split; [reflexivity|]. now rewrite <- Ek.
    Qed.

    Lemma siblings r x y : In r L -> In x (kids h r) -> In y (kids h r) -> same (dn_at h x) (dn_at h y) -> x = y.
    Proof.
      intros Ir Kx Ky S. destruct (dn_at_kid r x Ir Kx) as (rx & Ex & Cx & n & N & Ix), (dn_at_kid r y Ir Ky) as (ry & Ey & Cy & n' & N' & Iy).
      rewrite N in N'. injection N' as <-. rewrite Ex, Ey in S. apply same_cons in S as (S & _). apply (CC rx ry Cx Cy) in S. rewrite <- S in Iy.
      destruct (i_keys rt h L I r n Ir N) as (_ & ND). clear - Ix Iy ND. induction (n_children n) as [|(k & c) cs IH]; [destruct Ix|].
      cbn in ND. inversion ND as [|? ? Nk ND']; subst. destruct Ix as [Ex|Ix], Iy as [Ey|Iy].
      - congruence.
      - injection Ex as -> ->. exfalso. apply Nk. apply in_map_iff. eexists. split; [|exact Iy]. reflexivity.
      - injection Ey as -> ->. exfalso. apply Nk. apply in_map_iff. eexists. split; [|exact Ix]. reflexivity.
      - auto.
    Qed.

    Definition unique := unique0 lower h L T siblings.
    Definition lookup_root := lookup_root0 lower h L T siblings.
  End Facts.

  (** ** Adding *)
  Lemma key_get_none k cs : key_get k cs = None -> ~ In k (map fst cs).
  Proof.
    unfold key_get. destruct (find (fun x => str_eqb (fst x) k) cs) as [[]|] eqn:F; [discriminate|]. intros _ J.
    apply in_map_iff in J as (x & E & J). apply (find_none _ _ F) in J. rewrite E, str_eqb_refl in J. discriminate.
  Qed.
  Lemma key_get_some k cs c : key_get k cs = Some c -> In (k, c) cs.
  Proof.
    unfold key_get. destruct (find (fun x => str_eqb (fst x) k) cs) as [(k', c')|] eqn:F; [|discriminate]. intros [= <-].
    apply find_some in F as (J & E). apply str_eqb_eq in E. cbn in E. now subst.
  Qed.
  Lemma key_set_new k c cs : ~ In k (map fst cs) -> key_set k c cs = cs ++ [(k, c)].
  Proof.
    induction cs as [|x cs IH]; cbn; [reflexivity|]. intros N. destruct (str_eqb (fst x) k) eqn:E; [apply str_eqb_eq in E; tauto|]. now rewrite IH by tauto.
  Qed.

  Lemma add_child_inv rt h L p rd a h' c : inv rt h L -> In p L -> C rd -> add_child lower h p rd a = Ok (h', c) ->
    c = length h /\ inv rt h' (L ++ [c]) /\
    (forall r n, In r L -> nth_error h r = Some n -> exists n', nth_error h' r = Some n' /\ n_entry n' = n_entry n) /\
    exists m, nth_error h' c = Some m /\ n_entry m = new_entry lower (rd :: dn_at h p) a.
  Proof.
    intros I Ip Crd. pose proof (i_tree rt h L I) as T. destruct (t_node h L T p Ip) as (n & N).
    unfold add_child, deref. rewrite N. cbn [bind]. destruct (key_get (rdn_text rd) (n_children n)) as [?|] eqn:G; [discriminate|].
    intros E. apply Ok_inj in E. injection E as <- <-. apply key_get_none in G. rewrite (key_set_new _ _ _ G).
    set (c := length h).
    set (n1 := set_children n (n_children n ++ [(rdn_text rd, c : ref)])).
    set (new := mkNode (new_entry lower (rd :: n_dn n) a) (Some p) []).
    change (set_nth p (set_children n (n_children n ++ [(rdn_text rd, c)])) h ++ [new]) with (set_nth p n1 h ++ [new]).
    set (h' := set_nth p n1 h ++ [new]).
    assert (LT : forall r, In r L -> (r < c)%nat).
    { intros r Ir. destruct (t_node h L T r Ir) as (m & M). apply nth_error_Some. congruence. }
    assert (Nc : nth_error h' c = Some new).
    { unfold h'. rewrite nth_error_app2; rewrite set_nth_length; fold c; [|lia]. now rewrite Nat.sub_diag. }
    assert (No : forall r, In r L -> nth_error h' r = if Nat.eqb p r then Some n1 else nth_error h r).
    { intros r Ir. unfold h'. rewrite nth_error_app1 by (rewrite set_nth_length; apply LT; auto). rewrite nth_set_nth.
      destruct (Nat.eqb p r) eqn:Q; [|reflexivity]. now rewrite N. }
    assert (Kp : kids h' p = kids h p ++ [c]).
    { unfold kids. rewrite (No p Ip), Nat.eqb_refl, N. unfold n1, set_children. cbn [n_children]. now rewrite map_app. }
    assert (Ko : forall r, In r L -> r <> p -> kids h' r = kids h r).
    { intros r Ir Q. unfold kids. rewrite (No r Ir). destruct (Nat.eqb_spec p r); [congruence|reflexivity]. }
    assert (Kc : kids h' c = []) by (unfold kids; now rewrite Nc).
    assert (Kin : forall r x, In r (L ++ [c]) -> In x (kids h' r) -> In r L /\ (In x (kids h r) \/ r = p /\ x = c)).
    { intros r x Ir K. apply in_app_iff in Ir as [Ir|[<-|[]]]; [|rewrite Kc in K; destruct K]. split; [exact Ir|].
      destruct (Nat.eq_dec r p) as [->|Q]; [|left; now rewrite <- (Ko r Ir Q)]. rewrite Kp in K. apply in_app_iff in K as [K|[<-|[]]]; auto. }
    assert (Dn : forall r, In r L -> exists m m', nth_error h r = Some m /\ nth_error h' r = Some m' /\ n_dn m' = n_dn m /\ n_parent m' = n_parent m /\ n_entry m' = n_entry m).
    { intros r Ir. rewrite (No r Ir). destruct (t_node h L T r Ir) as (m & M). destruct (Nat.eqb_spec p r) as [->|Q].
      - rewrite N. exists n, n1. auto.
      - exists m, m. auto. }
    split; [reflexivity|]. split; [|split].
    - constructor.
      + constructor.
        * apply NoDup_app_intro2; [apply (t_nodup h L T)|repeat constructor; intros []|]. intros r Ir [<-|[]]. specialize (LT c Ir). lia.
        * apply in_or_app. left. apply (t_root h L T).
        * intros r Ir. apply in_app_iff in Ir as [Ir|[<-|[]]]; [|eauto]. destruct (Dn r Ir) as (_ & m' & _ & M' & _). eauto.
        * intros r x Ir K. apply (Kin r x Ir) in K as (Ir' & [K|(_ & ->)]); apply in_or_app; [left; eapply t_kids; eauto|right; now left].
        * intros r x m m' Ir K M M'. destruct (Kin r x Ir K) as (Ir' & [K'|(-> & ->)]).
          -- pose proof (t_kids h L T r x Ir' K') as Ix. destruct (Dn r Ir') as (m0 & m1 & M0 & M1 & D1 & _), (Dn x Ix) as (y0 & y1 & Y0 & Y1 & D2 & _).
             assert (m1 = m) by congruence. assert (y1 = m') by congruence. subst. rewrite D1, D2. exact (t_dn h L T r x m0 y0 Ir' K' M0 Y0).
          -- rewrite Nc in M'. injection M' as <-. rewrite (No p Ip), Nat.eqb_refl in M. injection M as <-. exists rd. reflexivity.
        * intros r Ir. apply in_app_iff in Ir as [Ir|[<-|[]]]; [|rewrite Kc; constructor]. destruct (Nat.eq_dec r p) as [->|Q].
          -- rewrite Kp. apply NoDup_app_intro2; [now apply (t_nodup_kids h L T)|repeat constructor; intros []|].
             intros x Kx [<-|[]]. pose proof (t_kids h L T p c Ip Kx) as Ix. apply LT in Ix. lia.
          -- rewrite (Ko r Ir Q). now apply (t_nodup_kids h L T).
        * intros r1 r2 x I1 I2 K1 K2. destruct (Kin r1 x I1 K1) as (I1' & [K1'|(Q3 & Q4)]), (Kin r2 x I2 K2) as (I2' & [K2'|(Q1 & Q2)]).
          -- eapply (t_one h L T); eauto.
          -- subst. exfalso. pose proof (t_kids h L T r1 c I1' K1') as Ix. apply LT in Ix. lia.
          -- subst. exfalso. pose proof (t_kids h L T r2 c I2' K2') as Ix. apply LT in Ix. lia.
          -- congruence.
        * intros r Ir Nr. apply in_app_iff in Ir as [Ir|[<-|[]]].
          -- destruct (t_up h L T r Ir Nr) as (q & Iq & K). exists q. split; [apply in_or_app; auto|]. destruct (Nat.eq_dec q p) as [->|Q].
             ++ rewrite Kp. apply in_or_app. auto.
             ++ now rewrite (Ko q Iq Q).
          -- exists p. split; [apply in_or_app; auto|]. rewrite Kp. apply in_or_app. right. now left.
      + intros r m Ir M. apply in_app_iff in Ir as [Ir|[<-|[]]].
        2:{ rewrite Nc in M. injection M as <-. cbn. split; constructor. }
        assert (CO : forall x, In (snd x) L -> child_ok h r x -> child_ok h' r x).
        { intros x Ix (y & rd' & rest & Y & E & F & G' & P). destruct (Dn _ Ix) as (y0 & y1 & Y0 & Y1 & D & Pp & _).
          exists y1, rd', rest. assert (y0 = y) by congruence. subst. rewrite D, Pp. auto. }
        destruct (Nat.eq_dec r p) as [->|Q].
        * rewrite (No p Ip), Nat.eqb_refl in M. injection M as <-. unfold n1, set_children. cbn [n_children].
          destruct (i_keys rt h L I p n Ip N) as (F & ND). split.
          -- apply Forall_app. split.
             ++ rewrite Forall_forall in *. intros x J. apply CO; [|auto]. apply (t_kids h L T p); [exact Ip|]. unfold kids. rewrite N. now apply in_map.
             ++ constructor; [|constructor]. exists new, rd, (n_dn n). cbn [fst snd]. auto.
          -- rewrite map_app. apply NoDup_app_intro2; [exact ND|repeat constructor; intros []|]. intros k J [<-|[]]. contradiction.
        * rewrite (No r Ir) in M. destruct (Nat.eqb_spec p r); [congruence|]. destruct (i_keys rt h L I r m Ir M) as (F & ND). split; [|exact ND].
          rewrite Forall_forall in *. intros x J. apply CO; [|auto]. apply (t_kids h L T r); [exact Ir|]. unfold kids. rewrite M. now apply in_map.
      + destruct (i_root rt h L I) as (m & M & P & D). destruct (Dn 0%nat (t_root h L T)) as (m0 & m1 & M0 & M1 & D1 & P1 & _).
        exists m1. assert (m0 = m) by congruence. subst. rewrite M1, D1, P1. auto.
    - intros r m Ir M. destruct (Dn r Ir) as (m0 & m1 & M0 & M1 & _ & _ & E). exists m1. assert (m0 = m) by congruence. subst. auto.
    - exists new. split; [exact Nc|]. unfold dn_at. rewrite N. reflexivity.
  Qed.

  (** ** Deleting *)
  Lemma key_del_in k cs x : In x (key_del k cs) <-> In x cs /\ fst x <> k.
  Proof.
    unfold key_del. rewrite filter_In. split; intros (J & E); (split; [exact J|]).
    - intros Q. subst. rewrite str_eqb_refl in E. discriminate.
    - destruct (str_eqb (fst x) k) eqn:Q; [apply str_eqb_eq in Q; contradiction|reflexivity].
  Qed.

  Lemma delete_child_inv rt h L p n rd c : inv rt h L -> In p L -> nth_error h p = Some n -> In (rdn_text rd, c) (n_children n) -> kids h c = [] ->
    exists h', delete_child h p rd = Ok (h', c) /\ inv rt h' (List.filter (fun r => negb (Nat.eqb r c)) L) /\
    (forall r m, In r L -> nth_error h r = Some m -> exists m', nth_error h' r = Some m' /\ n_entry m' = n_entry m).
  Proof.
    intros I Ip N J LF. pose proof (i_tree rt h L I) as T. destruct (i_keys rt h L I p n Ip N) as (F & ND).
    assert (FD : forall x, In x (n_children n) -> fst x = rdn_text rd -> x = (rdn_text rd, c)).
    { intros x Jx Ex. clear - ND J Jx Ex. induction (n_children n) as [|y cs IH]; [destruct J|]. cbn in ND. inversion ND as [|? ? Nk ND']; subst.
      destruct Jx as [->|Jx], J as [E|J]; [auto| | |auto].
      - exfalso. apply Nk. rewrite Ex. change (rdn_text rd) with (fst (rdn_text rd, c)). now apply in_map.
      - subst y. exfalso. apply Nk. cbn. rewrite <- Ex. now apply in_map. }
    assert (G : key_get (rdn_text rd) (n_children n) = Some c).
    { destruct (key_get (rdn_text rd) (n_children n)) as [c'|] eqn:G.
      - apply key_get_some in G. apply FD in G; [|reflexivity]. congruence.
      - apply key_get_none in G. exfalso. apply G. change (rdn_text rd) with (fst (rdn_text rd, c)). now apply in_map. }
    unfold delete_child, deref. rewrite N. cbn [bind]. rewrite G. set (n1 := set_children n (key_del (rdn_text rd) (n_children n))).
    exists (set_nth p n1 h). split; [reflexivity|]. set (h' := set_nth p n1 h). set (L' := List.filter (fun r => negb (Nat.eqb r c)) L).
    assert (InL' : forall r, In r L' <-> In r L /\ r <> c).
    { intros r. unfold L'. rewrite filter_In. destruct (Nat.eqb_spec r c); cbn; intuition congruence. }
    assert (Kpc : In c (kids h p)) by (unfold kids; rewrite N; change c with (snd (rdn_text rd, c)); now apply in_map).
    pose proof (t_kids h L T p c Ip Kpc) as Ic.
    assert (Npc : p <> c) by (intros ->; pose proof (dlen_kid h L T c c Ic Kpc); lia).
    assert (Nc0 : c <> 0%nat).
    { intros ->. pose proof (dlen_kid h L T p 0%nat Ip Kpc). pose proof (dlen_below h L T 0%nat p (t_root h L T) (root_below h L T p Ip)). lia. }
    assert (No : forall r, nth_error h' r = if Nat.eqb p r then Some n1 else nth_error h r).
    { intros r. unfold h'. rewrite nth_set_nth. destruct (Nat.eqb p r); [now rewrite N|reflexivity]. }
    assert (Dn : forall r, In r L -> exists m m', nth_error h r = Some m /\ nth_error h' r = Some m' /\ n_dn m' = n_dn m /\ n_parent m' = n_parent m /\ n_entry m' = n_entry m).
    { intros r Ir. rewrite (No r). destruct (t_node h L T r Ir) as (m & M). destruct (Nat.eqb_spec p r) as [->|Q].
      - rewrite N. exists n, n1. auto.
      - exists m, m. auto. }
    assert (Kp : forall x, In x (kids h' p) <-> In x (kids h p) /\ x <> c).
    { intros x. unfold kids. rewrite (No p), Nat.eqb_refl, N. unfold n1, set_children. cbn [n_children]. rewrite !in_map_iff. split.
      - intros (y & <- & Jy). apply key_del_in in Jy as (Jy & Q). split; [eauto|]. intros E.
        assert (NK : NoDup (map snd (n_children n))) by (pose proof (t_nodup_kids h L T p Ip) as X; unfold kids in X; now rewrite N in X).
        assert (y = (rdn_text rd, c)); [|subst y; now apply Q]. clear - NK J Jy E. induction (n_children n) as [|z cs IH]; [destruct J|].
        cbn in NK. inversion NK as [|? ? Nk NK']; subst. destruct Jy as [->|Jy], J as [E'|J]; [auto| | |auto].
        + exfalso. apply Nk. change (snd y) with (snd (rdn_text rd, snd y)). now apply in_map.
        + subst z. exfalso. apply Nk. cbn. now apply in_map.
      - intros ((y & <- & Jy) & Q). exists y. split; [reflexivity|]. apply key_del_in. split; [exact Jy|]. intros E. apply Q. now rewrite (FD y Jy E). }
    assert (Ko : forall r, r <> p -> kids h' r = kids h r).
    { intros r Q. unfold kids. rewrite (No r). destruct (Nat.eqb_spec p r); [congruence|reflexivity]. }
    assert (Ksub : forall r x, In x (kids h' r) -> In x (kids h r)).
    { intros r x K. destruct (Nat.eq_dec r p) as [->|Q]; [now apply Kp|now rewrite <- (Ko r Q)]. }
    split; [|intros r m Ir M; destruct (Dn r Ir) as (m0 & m1 & M0 & M1 & _ & _ & E); exists m1; assert (m0 = m) by congruence; subst; auto].
    constructor.
    - constructor.
      + apply NoDup_filter, (t_nodup h L T).
      + apply InL'. split; [apply (t_root h L T)|congruence].
      + intros r Ir. apply InL' in Ir as (Ir & _). destruct (Dn r Ir) as (_ & m' & _ & M' & _). eauto.
      + intros r x Ir K. apply InL' in Ir as (Ir & Nr). apply InL'. split; [eapply t_kids; eauto|]. intros ->.
        pose proof (Ksub _ _ K) as K'. assert (r = p) by (eapply (t_one h L T); eauto). subst r. apply Kp in K. now apply K.
      + intros r x m m' Ir K M M'. apply InL' in Ir as (Ir & Nr). pose proof (Ksub _ _ K) as K'. pose proof (t_kids h L T r x Ir K') as Ix.
        destruct (Dn r Ir) as (m0 & m1 & M0 & M1 & D1 & _), (Dn x Ix) as (y0 & y1 & Y0 & Y1 & D2 & _).
        assert (m1 = m) by congruence. assert (y1 = m') by congruence. subst. rewrite D1, D2. exact (t_dn h L T r x m0 y0 Ir K' M0 Y0).
      + intros r Ir. apply InL' in Ir as (Ir & Nr). destruct (Nat.eq_dec r p) as [->|Q]; [|rewrite (Ko r Q); now apply (t_nodup_kids h L T)].
        unfold kids. rewrite (No p), Nat.eqb_refl. unfold n1, set_children, key_del. cbn [n_children].
        pose proof (t_nodup_kids h L T p Ip) as X. unfold kids in X. rewrite N in X. clear - X.
        induction (n_children n) as [|z cs IH]; cbn; [constructor|]. cbn in X. inversion X as [|? ? Nk X']; subst. destruct (str_eqb (fst z) (rdn_text rd)); cbn; [auto|].
        constructor; [|auto]. intros J. apply Nk. apply in_map_iff in J as (y & E & J). apply filter_In in J as (J & _). rewrite <- E. now apply in_map.
      + intros a b x Ia Ib Ka Kb. apply InL' in Ia as (Ia & _). apply InL' in Ib as (Ib & _). eapply (t_one h L T); eauto.
      + intros r Ir Nr. apply InL' in Ir as (Ir & Nrc). destruct (t_up h L T r Ir Nr) as (q & Iq & K). exists q. split.
        * apply InL'. split; [exact Iq|]. intros ->. rewrite LF in K. destruct K.
        * destruct (Nat.eq_dec q p) as [->|Q]; [now apply Kp|now rewrite (Ko q Q)].
    - intros r m Ir M. apply InL' in Ir as (Ir & Nr).
      assert (CO : forall x, In (snd x) L -> child_ok h r x -> child_ok h' r x).
      { intros x Ix (y & rd' & rest & Y & E & F' & G' & P). destruct (Dn _ Ix) as (y0 & y1 & Y0 & Y1 & D & Pp & _).
        exists y1, rd', rest. assert (y0 = y) by congruence. subst. rewrite D, Pp. auto. }
      rewrite (No r) in M. destruct (Nat.eqb_spec p r) as [<-|Q].
      + injection M as <-. unfold n1, set_children. cbn [n_children]. split.
        * rewrite Forall_forall in *. intros x Jx. apply key_del_in in Jx as (Jx & _). apply CO; [|auto].
          apply (t_kids h L T p); [exact Ip|]. unfold kids. rewrite N. now apply in_map.
        * clear - ND. unfold key_del. induction (n_children n) as [|z cs IH]; cbn; [constructor|]. cbn in ND. inversion ND as [|? ? Nk X']; subst. destruct (str_eqb (fst z) (rdn_text rd)); cbn; [auto|].
          constructor; [|auto]. intros J. apply Nk. apply in_map_iff in J as (y & E & J). apply filter_In in J as (J & _). rewrite <- E. now apply in_map.
      + destruct (i_keys rt h L I r m Ir M) as (F' & ND'). split; [|exact ND'].
        rewrite Forall_forall in *. intros x Jx. apply CO; [|auto]. apply (t_kids h L T r); [exact Ir|]. unfold kids. rewrite M. now apply in_map.
    - destruct (i_root rt h L I) as (m & M & P & D). destruct (Dn 0%nat (t_root h L T)) as (m0 & m1 & M0 & M1 & D1 & P1 & _).
      exists m1. assert (m0 = m) by congruence. subst. rewrite M1, D1, P1. auto.
  Qed.

  (** ** Histories *)
  Definition stored (h : heap) (r : ref) (x : dn * attrs) : Prop :=
    exists n, nth_error h r = Some n /\ n_entry n = new_entry lower (fst x) (snd x).
  Definition sim (rt : dn) (h : heap) (L : list ref) (M : dir) : Prop := inv rt h L /\ Forall2 (stored h) L M.

  Lemma stored_dn h r x : stored h r x -> dn_at h r = fst x.
  Proof. intros (n & N & E). unfold dn_at, n_dn. rewrite N, E. reflexivity. Qed.
  Lemma sim_dn h L M x : Forall2 (stored h) L M -> In x M -> exists r, In r L /\ stored h r x.
  Proof. induction 1 as [|r y L M S F IH]; intros J; [destruct J|]. destruct J as [<-|J]; [exists r; split; [now left|exact S]|]. destruct (IH J) as (q & Q & S'). exists q. split; [now right|exact S']. Qed.
  Lemma sim_ref h L M r : Forall2 (stored h) L M -> In r L -> exists x, In x M /\ stored h r x.
  Proof. induction 1 as [|q y L M S F IH]; intros J; [destruct J|]. destruct J as [<-|J]; [exists y; split; [now left|exact S]|]. destruct (IH J) as (x & Q & S'). exists x. split; [now right|exact S']. Qed.

  Lemma spec_at h L M d : Forall2 (stored h) L M -> (existsb (at_dn lower d) M = true <-> exists c, In c L /\ same (dn_at h c) d).
  Proof.
    intros F. rewrite existsb_exists. unfold at_dn. split.
    - intros (x & J & E). apply dn_eqb_spec in E. destruct (sim_dn h L M x F J) as (r & Ir & S). exists r. now rewrite (stored_dn h r x S).
    - intros (c & Ic & S). destruct (sim_ref h L M c F Ic) as (x & J & Sx). exists x. split; [exact J|]. apply dn_eqb_spec. now rewrite <- (stored_dn h c x Sx).
  Qed.
  Lemma spec_find h L M d rt : inv rt h L -> Forall2 (stored h) L M ->
    match find (at_dn lower d) M with
    | Some x => exists c, In c L /\ same (dn_at h c) d /\ stored h c x
    | None => forall c, In c L -> ~ same (dn_at h c) d
    end.
  Proof.
    intros I F. destruct (find (at_dn lower d) M) as [x|] eqn:E.
    - apply find_some in E as (J & E). unfold at_dn in E. apply dn_eqb_spec in E. destruct (sim_dn h L M x F J) as (r & Ir & S). exists r.
      split; [exact Ir|]. split; [|exact S]. now rewrite (stored_dn h r x S).
    - intros c Ic S. destruct (sim_ref h L M c F Ic) as (x & J & Sx). apply (find_none _ _ E) in J. unfold at_dn in J.
      rewrite <- (stored_dn h c x Sx) in J. apply dn_eqb_spec in S. congruence.
  Qed.

  Lemma hop_step rt h L M depth x : sim rt h L M -> hop_ok C depth x ->
    let (h', o) := do_hop lower depth x h in let (M', o') := spec_hop lower rt x M in
    o = o' /\ exists L', sim rt h' L' M'.
  Proof.
    intros (I & F) OK. pose proof (i_tree rt h L I) as T. destruct x as [parent rd a|d]; cbn [do_hop spec_hop hop_ok] in *.
    - destruct OK as (Crd & D). pose proof (spec_find h L M parent rt I F) as SF. destruct (lookup_root rt h L I depth parent D) as (LK1 & LK2).
      destruct (find (at_dn lower parent) M) as [(p & pa)|].
      2:{ rewrite (LK2 SF). cbn [bind]. split; [reflexivity|]. exists L. now split. }
      destruct SF as (r & Ir & S & St). rewrite (LK1 r Ir S). cbn [bind]. pose proof (stored_dn h r _ St) as Dr. cbn [fst] in Dr.
      destruct (t_node h L T r Ir) as (n & N).
      assert (EX : existsb (at_dn lower (rd :: p)) M = true <-> exists c, key_get (rdn_text rd) (n_children n) = Some c).
      { rewrite (spec_at h L M (rd :: p) F). rewrite <- Dr. split.
        - intros (c & Ic & Sc). assert (Nc : c <> 0%nat).
          { intros ->. apply same_len in Sc. cbn in Sc. rewrite <- !dlen_at in Sc. pose proof (dlen_below h L T 0%nat r (t_root h L T) (root_below h L T r Ir)). lia. }
          destruct (t_up h L T c Ic Nc) as (q & Iq & Kq). destruct (dn_at_kid rt h L I q c Iq Kq) as (rc & Ec & Cc & n' & N' & Jc).
          rewrite Ec in Sc. apply same_cons in Sc as (S1 & S2). assert (q = r) as -> by (eapply (unique rt h L I); eauto).
          rewrite N in N'. injection N' as <-. apply (CC rc rd Cc Crd) in S1. rewrite S1 in Jc.
          destruct (key_get (rdn_text rd) (n_children n)) as [c'|] eqn:G; [eauto|]. apply key_get_none in G. exfalso. apply G.
          change (rdn_text rd) with (fst (rdn_text rd, c)). now apply in_map.
        - intros (c & G). apply key_get_some in G. assert (K : In c (kids h r)) by (unfold kids; rewrite N; change c with (snd (rdn_text rd, c)); now apply in_map).
          exists c. split; [eapply t_kids; eauto|]. destruct (dn_at_kid rt h L I r c Ir K) as (rc & Ec & Cc & _). rewrite Ec.
          apply same_cons. split; [|apply same_refl]. destruct (i_keys rt h L I r n Ir N) as (FC & _). rewrite Forall_forall in FC. apply FC in G.
          destruct G as (m & rd' & rest & Nm & Em & Ek & Cr & _). cbn [fst snd] in *. assert (dn_at h c = rd' :: rest) by (unfold dn_at; now rewrite Nm).
          rewrite Ec in H. injection H as <- _. apply (CC rc rd Cc Crd). auto. }
      destruct (existsb (at_dn lower (rd :: p)) M).
      + destruct (proj1 EX eq_refl) as (c & G). unfold add_child, deref. rewrite N. cbn [bind]. rewrite G. split; [reflexivity|]. exists L. now split.
      + destruct (add_child lower h r rd a) as [(h', c)|er] eqn:AC.
        * split; [reflexivity|]. destruct (add_child_inv rt h L r rd a h' c I Ir Crd AC) as (Ec & I' & KP & m & Nm & Em).
          exists (L ++ [c]). split; [exact I'|]. apply Forall2_app.
          -- clear - F KP. assert (KP' : forall r n, In r L -> nth_error h r = Some n -> exists n', nth_error h' r = Some n' /\ n_entry n' = n_entry n) by exact KP.
             clear KP. induction F as [|q y L M S F IH]; constructor.
             ++ destruct S as (n & N & E). destruct (KP' q n (or_introl eq_refl) N) as (n' & N' & E'). exists n'. split; [exact N'|congruence].
             ++ apply IH. intros r n J. apply KP'. now right.
          -- constructor; [|constructor]. exists m. cbn [fst snd]. rewrite <- Dr. auto.
        * exfalso. unfold add_child, deref in AC. rewrite N in AC. cbn [bind] in AC. destruct (key_get (rdn_text rd) (n_children n)) as [c|] eqn:G; [|discriminate].
          destruct EX as (_ & EX). specialize (EX (ex_intro _ c eq_refl)). discriminate.
    - pose proof (lookup_root rt h L I depth d OK) as (LK1 & LK2). pose proof (spec_at h L M d F) as SA.
      destruct (existsb (at_dn lower d) M); cbn [negb].
      2:{ rewrite LK2; [cbn [bind]; split; [reflexivity|]; exists L; now split|]. intros c Ic S. assert (false = true) by (apply SA; eauto). discriminate. }
      destruct (proj1 SA eq_refl) as (c & Ic & S). rewrite (LK1 c Ic S). cbn [bind]. destruct (t_node h L T c Ic) as (n & N).
      destruct (i_root rt h L I) as (n0 & N0 & P0 & D0). unfold delete, deref at 1. rewrite N. cbn [bind].
      assert (RT : dn_eqb lower rt d = true <-> c = 0%nat).
      { rewrite dn_eqb_spec. assert (DR : dn_at h 0%nat = rt) by (unfold dn_at; now rewrite N0). rewrite <- DR. split.
        - intros S0. symmetry. apply (unique rt h L I); [apply (t_root h L T)|exact Ic|]. eapply same_trans; [exact S0|now apply same_sym].
        - intros ->. exact S. }
      destruct (dn_eqb lower rt d).
      { assert (c = 0%nat) as -> by now apply RT. rewrite N0 in N. injection N as <-. rewrite P0. split; [reflexivity|]. exists L. now split. }
      assert (Nc : c <> 0%nat) by (intros Q; apply RT in Q; discriminate).
      destruct (t_up h L T c Ic Nc) as (p & Ip & Kp). destruct (t_node h L T p Ip) as (np & Np).
      assert (PC : n_parent n = Some p).
      { destruct (i_keys rt h L I p np Ip Np) as (FC & _). rewrite Forall_forall in FC. unfold kids in Kp. rewrite Np in Kp.
        apply in_map_iff in Kp as (y & <- & Jy). destruct (FC y Jy) as (m & ? & ? & Nm & _ & _ & _ & P). congruence. }
      rewrite PC.
      assert (NL : existsb (fun x => match fst x with _ :: q => dn_eqb lower q d | [] => false end) M = true <-> n_children n <> []).
      { rewrite existsb_exists. split.
        - intros (x & J & E). destruct (sim_dn h L M x F J) as (y & Iy & Sy). apply stored_dn in Sy. destruct x as (dx & ax). cbn [fst] in *. subst dx.
          destruct (dn_at h y) as [|ry q] eqn:Ey; [discriminate|]. apply dn_eqb_spec in E.
          assert (Ny : y <> 0%nat).
          { intros ->. apply same_len in E. apply same_len in S. assert (length (dn_at h 0%nat) = Datatypes.S (length q)) by (rewrite Ey; reflexivity).
            pose proof (dlen_below h L T 0%nat c (t_root h L T) (root_below h L T c Ic)) as B0. rewrite !dlen_at in B0. lia. }
          destruct (t_up h L T y Iy Ny) as (z & Iz & Kz). destruct (dn_at_kid rt h L I z y Iz Kz) as (rz & Ez & _). rewrite Ey in Ez. injection Ez as _ ->.
          assert (z = c) as -> by (apply (unique rt h L I); auto; eapply same_trans; [exact E|now apply same_sym]).
          unfold kids in Kz. rewrite N in Kz. intros Q. rewrite Q in Kz. destruct Kz.
        - intros Q. destruct (n_children n) as [|(k & y) cs] eqn:CS; [congruence|]. assert (K : In y (kids h c)) by (unfold kids; rewrite N, CS; now left).
          pose proof (t_kids h L T c y Ic K) as Iy. destruct (sim_ref h L M y F Iy) as (x & J & Sx). exists x. split; [exact J|].
          apply stored_dn in Sx. destruct (dn_at_kid rt h L I c y Ic K) as (ry & Ey & _). destruct x as (dx & ax). cbn [fst] in *. rewrite <- Sx, Ey. now apply dn_eqb_spec. }
      destruct (existsb (fun x => match fst x with _ :: q => dn_eqb lower q d | [] => false end) M).
      { destruct (n_children n); [exfalso; now apply (proj1 NL eq_refl)|]. split; [reflexivity|]. exists L. now split. }
      destruct (n_children n) as [|z zs] eqn:CS; [|assert (false = true) by (apply NL; congruence); discriminate].
      destruct (dn_at_kid rt h L I p c Ip Kp) as (rc & Ec & Cc & np' & Np' & Jc). rewrite Np in Np'. injection Np' as <-.
      assert (En : n_dn n = rc :: dn_at h p) by (rewrite <- Ec; unfold dn_at; now rewrite N). rewrite En.
      destruct (delete_child_inv rt h L p np rc c I Ip Np Jc) as (h' & E & I' & KP); [unfold kids; now rewrite N, CS|]. rewrite E.
      split; [reflexivity|]. exists (List.filter (fun r => negb (Nat.eqb r c)) L). split; [exact I'|].
      assert (U : forall r x, In r L -> stored h r x -> at_dn lower d x = Nat.eqb r c).
      { intros r x Ir Sx. unfold at_dn. rewrite <- (stored_dn h r x Sx). destruct (Nat.eqb_spec r c) as [->|Q]; [now apply dn_eqb_spec|].
        destruct (dn_eqb lower (dn_at h r) d) eqn:Eq; [|reflexivity]. apply dn_eqb_spec in Eq. exfalso. apply Q. apply (unique rt h L I); auto.
        eapply same_trans; [exact Eq|now apply same_sym]. }
      clear - F KP U. revert U KP. induction F as [|q y L M S F IH]; intros U KP; cbn [List.filter]; [constructor|].
      rewrite (U q y (or_introl eq_refl) S). assert (R : Forall2 (stored h') (List.filter (fun r => negb (Nat.eqb r c)) L) (List.filter (fun x => negb (at_dn lower d x)) M)).
      { apply IH; intros; [apply U|eapply KP]; eauto; now right. }
      destruct (Nat.eqb q c); cbn [negb]; [exact R|]. constructor; [|exact R].
      destruct S as (n & N & E). destruct (KP q n (or_introl eq_refl) N) as (n' & N' & E'). exists n'. split; [exact N'|congruence].
  Qed.

  Lemma hops_sim rt depth xs : forall h L M, sim rt h L M -> Forall (hop_ok C depth) xs ->
    let (h', os) := do_hops lower depth xs h in let (M', os') := spec_hops lower rt xs M in
    os = os' /\ exists L', sim rt h' L' M'.
  Proof.
    induction xs as [|x xs IH]; intros h L M S F; cbn [do_hops spec_hops]; [split; [reflexivity|eauto]|].
    inversion F as [|? ? Fx Fs]; subst. pose proof (hop_step rt h L M depth x S Fx) as ST.
    destruct (do_hop lower depth x h) as (h1 & o), (spec_hop lower rt x M) as (M1 & o'). destruct ST as (-> & L1 & S1).
    specialize (IH h1 L1 M1 S1 Fs). destruct (do_hops lower depth xs h1) as (h2 & os), (spec_hops lower rt xs M1) as (M2 & os').
    destruct IH as (-> & IH). auto.
  Qed.

  Lemma start_sim rt a : sim rt (start lower rt a) [0%nat] [(rt, a)].
  Proof.
    split.
    - constructor.
      + constructor.
        * repeat constructor; intros [].
        * now left.
        * intros r [<-|[]]. eexists. reflexivity.
        * intros r c [<-|[]] [].
        * intros r c n m [<-|[]] [].
        * intros r [<-|[]]. constructor.
        * intros a0 b c [<-|[]] [<-|[]]. reflexivity.
        * intros c [<-|[]] N. congruence.
      + intros r n [<-|[]] [= <-]. cbn. split; constructor.
      + eexists. split; [reflexivity|]. split; reflexivity.
    - constructor; [|constructor]. eexists. split; reflexivity.
  Qed.

  (** C31 *)
  Lemma history rt a depth xs : Forall (hop_ok C depth) xs ->
    let (h, os) := do_hops lower depth xs (start lower rt a) in
    let (M, os') := spec_hops lower rt xs [(rt, a)] in
    os = os' /\
    forall d, (length d < depth)%nat ->
      match find (at_dn lower d) M with
      | Some (d', a') => exists r, lookup lower depth h 0%nat d = Ok r /\ entry_at h r (new_entry lower d' a') /\ same d' d
      | None => lookup lower depth h 0%nat d = Err (ELdap 32)
      end.
  Proof.
    intros F. pose proof (hops_sim rt depth xs _ _ _ (start_sim rt a) F) as HS.
    destruct (do_hops lower depth xs (start lower rt a)) as (h & os), (spec_hops lower rt xs [(rt, a)]) as (M & os').
    destruct HS as (-> & L & I & FS). split; [reflexivity|]. intros d D. pose proof (spec_find h L M d rt I FS) as SF.
    destruct (lookup_root rt h L I depth d D) as (LK1 & LK2). destruct (find (at_dn lower d) M) as [(d' & a')|].
    - destruct SF as (c & Ic & S & St). exists c. split; [now apply LK1|]. split.
      + destruct St as (n & N & E). exists n. auto.
      + apply stored_dn in St. cbn [fst] in St. now rewrite <- St.
    - now apply LK2.
  Qed.

  (** C33 and the tree shape after any history *)
  Lemma history_tree rt a depth xs : Forall (hop_ok C depth) xs ->
    exists L, tree (fst (do_hops lower depth xs (start lower rt a))) L /\
    forall r s e1 e2, In r L -> In s L -> entry_at (fst (do_hops lower depth xs (start lower rt a))) r e1 ->
      entry_at (fst (do_hops lower depth xs (start lower rt a))) s e2 -> r <> s -> dn_eqb lower (e_dn e1) (e_dn e2) = false.
  Proof.
    intros F. pose proof (hops_sim rt depth xs _ _ _ (start_sim rt a) F) as HS.
    destruct (do_hops lower depth xs (start lower rt a)) as (h & os), (spec_hops lower rt xs [(rt, a)]) as (M & os').
    destruct HS as (_ & L & I & FS). cbn [fst]. exists L. split; [apply (i_tree rt h L I)|].
    intros r s e1 e2 Ir Is (n & N & <-) (m & Mm & <-) Q. destruct (dn_eqb lower (e_dn (n_entry n)) (e_dn (n_entry m))) eqn:E; [|reflexivity].
    exfalso. apply Q. apply (unique rt h L I); auto. apply dn_eqb_spec in E. unfold dn_at. now rewrite N, Mm.
  Qed.
End Inv.
