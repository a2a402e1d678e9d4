(** Proofs for InmemModel. *)
From Verif Require Import Base BaseFacts Utf8Model DnModel DnSpec DnProofs EntryModel EntrySpec EntryProofs LdapSpec MatchModel InmemModel InmemSpec.
From Coq Require Import Permutation.

(** ** Heaps *)
Lemma set_nth_length {A} n (x : A) l : length (set_nth n x l) = length l.
Proof. revert n. induction l; destruct n; cbn; auto. Qed.
Lemma nth_set_nth {A} n m (x : A) l : nth_error (set_nth n x l) m =
  if Nat.eqb n m then match nth_error l n with Some _ => Some x | None => None end else nth_error l m.
Proof.
  revert n m. induction l as [|y l IH]; intros [|n] [|m]; cbn; try reflexivity.
  - destruct (Nat.eqb n m); reflexivity.
  - apply IH.
Qed.
Lemma deref_ok h r n : deref h r = Ok n <-> nth_error h r = Some n.
Proof. unfold deref. destruct (nth_error h r); split; congruence. Qed.

Lemma NoDup_app_intro2 {A} (a b : list A) : NoDup a -> NoDup b -> (forall x, In x a -> ~ In x b) -> NoDup (a ++ b).
Proof.
  induction 1 as [|x a Nx ND IH]; intros Nb D; [exact Nb|]. cbn. constructor.
  - rewrite in_app_iff. intros [I|I]; [contradiction|]. apply (D x); [now left|exact I].
  - apply IH; [exact Nb|]. intros y I. apply D. now right.
Qed.

Lemma NoDup_app_l {A} (a b : list A) : NoDup (a ++ b) -> NoDup a.
Proof. induction a as [|x a IH]; cbn; intros N; [constructor|]. inversion N; subst. constructor; [rewrite in_app_iff in *; tauto|auto]. Qed.
Lemma NoDup_app_r {A} (a b : list A) : NoDup (a ++ b) -> NoDup b.
Proof. induction a as [|x a IH]; cbn; intros N; [exact N|]. inversion N; subst. auto. Qed.

(** ** Walking *)
Section Walk.
  Variables (h : heap) (L : list ref).
  Hypothesis T : tree h L.

  Lemma below_in r c : below h r c -> In r L -> In c L.
  Proof. induction 1; intros; [assumption|]. apply IHbelow. eapply t_kids; eauto. Qed.
  Lemma below_trans a b c : below h a b -> below h b c -> below h a c.
  Proof. induction 1; intros; [assumption|]. econstructor; eauto. Qed.

  Definition dlen (r : ref) : nat := match nth_error h r with Some n => length (n_dn n) | None => 0%nat end.
  Lemma dlen_kid r c : In r L -> In c (kids h r) -> dlen c = S (dlen r).
  Proof.
    intros I K. pose proof (t_kids h L T r c I K) as Ic. destruct (t_node h L T r I) as (n & N), (t_node h L T c Ic) as (m & M).
    destruct (t_dn h L T r c n m I K N M) as (rd & E). unfold dlen. rewrite N, M, E. reflexivity.
  Qed.
  Lemma dlen_below r c : In r L -> below h r c -> (dlen r <= dlen c)%nat.
  Proof.
    intros I B. induction B; [lia|]. pose proof (dlen_kid r x I H). pose proof (t_kids h L T r x I H). specialize (IHB H1). lia.
  Qed.

  Lemma one_parent a b c : In a L -> In b L -> In c (kids h a) -> In c (kids h b) -> a = b.
  Proof. exact (t_one h L T a b c). Qed.
  Lemma kids_nodup a : In a L -> NoDup (kids h a).
  Proof. exact (t_nodup_kids h L T a). Qed.
  Lemma root_below c : In c L -> below h 0%nat c.
  Proof.
    remember (dlen c) as k eqn:E. revert c E. induction k as [k IH] using lt_wf_ind. intros c E I.
    destruct (Nat.eq_dec c 0) as [->|N]; [constructor|]. destruct (t_up h L T c I N) as (r & Ir & K).
    pose proof (dlen_kid r c Ir K). apply below_trans with r; [apply (IH (dlen r)); auto; lia|]. econstructor; [exact K|constructor].
  Qed.
  Lemma below_last r c : below h r c -> c = r \/ exists p, below h r p /\ In c (kids h p).
  Proof.
    induction 1 as [r|r x c K B IH]; [now left|]. right. destruct IH as [->|(p & Bp & Kp)].
    - exists r. split; [constructor|exact K].
    - exists p. split; [econstructor; eauto|exact Kp].
  Qed.
  (** Two different kids of one entry have nothing in common below them. *)
  Lemma kids_apart r x y c : In r L -> In x (kids h r) -> In y (kids h r) -> below h x c -> below h y c -> x = y.
  Proof.
    intros I Kx Ky Bx By. remember (dlen c) as k eqn:E. revert c E Bx By. induction k as [k IH] using lt_wf_ind. intros c E Bx By.
    pose proof (t_kids h L T r x I Kx) as Ix. pose proof (t_kids h L T r y I Ky) as Iy.
    pose proof (dlen_kid r x I Kx). pose proof (dlen_kid r y I Ky).
    destruct (below_last x c Bx) as [Q0|(p & Bp & Kp)]; destruct (below_last y c By) as [Q|(q & Bq & Kq)].
    - congruence.
    - subst c. exfalso. pose proof (below_in y q Bq Iy) as Iq. pose proof (dlen_kid q x Iq Kq). pose proof (dlen_below y q Iy Bq). lia.
    - subst c. exfalso. pose proof (below_in x p Bp Ix) as Ip. pose proof (dlen_kid p y Ip Kp). pose proof (dlen_below x p Ix Bp). lia.
    - pose proof (below_in x p Bp Ix) as Ip. pose proof (below_in y q Bq Iy) as Iq.
      assert (p = q) as <- by (eapply one_parent; eauto). pose proof (dlen_kid p c Ip Kp). eapply (IH (dlen p)); eauto. lia.
  Qed.

  (** The walk without failing callbacks visits a list of references. *)
  Section Visit.
    Variable St : Type.
    Variable cb : ref -> St -> St * option exn.
    (** [ok r]: the callback does not raise on [r]. *)
    Variable step : ref -> St -> St.

    Lemma subtree_visits depth : forall r s, In r L -> (forall c, below h r c -> (dlen c - dlen r < depth)%nat) ->
      (forall c s, below h r c -> cb c s = (step c s, None)) ->
      exists l, subtree cb depth h r s = (fold_left (fun s c => step c s) l s, None) /\
        NoDup l /\ forall c, In c l <-> below h r c.
    Proof.
      induction depth as [|depth IH]; intros r s I D C.
      { specialize (D r (below_refl h r)). lia. }
      cbn [subtree]. rewrite (C r s (below_refl h r)). destruct (t_node h L T r I) as (n & N). rewrite N.
      assert (KD : kids h r = map snd (n_children n)) by (unfold kids; now rewrite N).
      set (pop := fix pop cs s := match cs with [] => s | (_, c) :: rest =>
              match subtree cb depth h c s with (s1, None) => pop rest s1 | (s1, Some _) => s1 end end).
      assert (P : forall cs s, (forall x, In x (map snd cs) -> In x (kids h r)) -> NoDup (map snd cs) ->
                exists l, pop cs s = fold_left (fun s c => step c s) l s /\ NoDup l /\
                  forall c, In c l <-> exists x, In x (map snd cs) /\ below h x c).
      { induction cs as [|(k & x) cs IHc]; intros s0 Sub ND.
        - exists []. split; [reflexivity|]. split; [constructor|]. intros c. split; [intros []|intros (y & [] & _)].
        - assert (Kx : In x (kids h r)) by (apply Sub; now left). pose proof (t_kids h L T r x I Kx) as Ix. pose proof (dlen_kid r x I Kx) as Dx.
          destruct (IH x s0 Ix) as (l1 & E1 & N1 & S1).
          { intros c B. assert (below h r c) by (econstructor; eauto). pose proof (dlen_below x c Ix B). specialize (D c H). lia. }
          { intros c s1 B. apply C. econstructor; eauto. }
          inversion ND as [|? ? Nx ND']; subst.
          destruct (IHc (fold_left (fun s c => step c s) l1 s0)) as (l2 & E2 & N2 & S2); [intros y Iy; apply Sub; now right|exact ND'|].
          exists (l1 ++ l2). cbn [pop]. rewrite E1. fold pop. rewrite E2, fold_left_app. split; [reflexivity|]. split.
          + apply NoDup_app_intro2; [exact N1|exact N2|]. intros c J1 J2. apply S1 in J1. apply S2 in J2 as (y & Iy & By).
            assert (Ky : In y (kids h r)) by (apply Sub; now right). assert (x = y) by exact (kids_apart r x y c I Kx Ky J1 By). congruence.
          + intros c. rewrite in_app_iff, S1, S2. cbn [map snd In]. split.
            * intros [B|(y & Iy & By)]; [exists x; auto|exists y; auto].
            * intros (y & [<-|Iy] & By); [now left|right; eauto]. }
      destruct (P (rev (n_children n)) (step r s)) as (l & E & ND & SP).
      { intros x J. rewrite map_rev, <- in_rev in J. now rewrite KD. }
      { rewrite map_rev. apply NoDup_rev. rewrite <- KD. now apply kids_nodup. }
      exists (r :: l). split; [cbn [fold_left]; now rewrite E|]. split.
      - constructor; [|exact ND]. intros J. apply SP in J as (x & Kx & B). rewrite map_rev, <- in_rev, <- KD in Kx.
        pose proof (dlen_kid r x I Kx). pose proof (dlen_below x r (t_kids h L T r x I Kx) B). lia.
      - intros c. cbn [In]. rewrite SP. split.
        + intros [<-|(x & Kx & B)]; [constructor|]. rewrite map_rev, <- in_rev, <- KD in Kx. econstructor; eauto.
        + intros B. inversion B as [|? x ? Kx B']; subst; [now left|right]. exists x. rewrite map_rev, <- in_rev, <- KD. auto.
    Qed.
  End Visit.
End Walk.

Section Search.
  Variable lower : str -> str.
  Variables (h : heap) (L : list ref).
  Hypothesis T : tree h L.

  (** Whatever the callback raises, it is called at most once for each entry below. *)
  Lemma subtree_some {St} (cb : ref -> St -> St * option exn) depth : forall r s, In r L ->
    exists l, fst (subtree cb depth h r s) = fold_left (fun s c => fst (cb c s)) l s /\ NoDup l /\ forall c, In c l -> below h r c.
  Proof.
    induction depth as [|depth IH]; intros r s I.
    { exists []. split; [reflexivity|]. split; [constructor|]. intros c []. }
    cbn [subtree]. destruct (cb r s) as (s' & o) eqn:C. destruct o as [x|].
    { exists [r]. cbn [fold_left]. rewrite C. split; [reflexivity|]. split; [repeat constructor; intros []|]. intros c [<-|[]]. constructor. }
    destruct (t_node h L T r I) as (n & N). rewrite N. cbn [fst].
    assert (KD : kids h r = map snd (n_children n)) by (unfold kids; now rewrite N).
    set (pop := fix pop cs s := match cs with [] => s | (_, c) :: rest =>
              match subtree cb depth h c s with (s1, None) => pop rest s1 | (s1, Some _) => s1 end end).
    assert (P : forall cs s, (forall x, In x (map snd cs) -> In x (kids h r)) -> NoDup (map snd cs) ->
                exists l, pop cs s = fold_left (fun s c => fst (cb c s)) l s /\ NoDup l /\
                  forall c, In c l -> exists x, In x (map snd cs) /\ below h x c).
    { induction cs as [|(k & x) cs IHc]; intros s0 Sub ND.
      - exists []. split; [reflexivity|]. split; [constructor|]. intros c [].
      - assert (Kx : In x (kids h r)) by (apply Sub; now left). pose proof (t_kids h L T r x I Kx) as Ix.
        destruct (IH x s0 Ix) as (l1 & E1 & N1 & S1). cbn [pop]. fold pop.
        inversion ND as [|? ? Nx ND']; subst. destruct (subtree cb depth h x s0) as (s1 & [y|]) eqn:E; cbn [fst] in E1.
        + exists l1. split; [exact E1|]. split; [exact N1|]. intros c J. exists x. split; [now left|auto].
        + destruct (IHc s1) as (l2 & E2 & N2 & S2); [intros y Iy; apply Sub; now right|exact ND'|].
          exists (l1 ++ l2). rewrite fold_left_app, <- E1, E2. split; [reflexivity|]. split.
          * apply NoDup_app_intro2; [exact N1|exact N2|]. intros c J1 J2. apply S1 in J1. apply S2 in J2 as (y & Iy & By).
            assert (Ky : In y (kids h r)) by (apply Sub; now right). assert (x = y) by exact (kids_apart h L T r x y c I Kx Ky J1 By). congruence.
          * intros c. rewrite in_app_iff. intros [J|J]; [exists x; split; [now left|auto]|]. apply S2 in J as (y & Iy & By). exists y. split; [now right|exact By]. }
    destruct (P (rev (n_children n)) s') as (l & E & ND & SP).
    { intros x J. rewrite map_rev, <- in_rev in J. now rewrite KD. }
    { rewrite map_rev. apply NoDup_rev. rewrite <- KD. now apply (kids_nodup h L T). }
    assert (SP' : forall c, In c l -> exists x, In x (kids h r) /\ below h x c).
    { intros c J. apply SP in J as (x & Kx & B). rewrite map_rev, <- in_rev, <- KD in Kx. eauto. }
    exists (r :: l). cbn [fold_left]. rewrite C. split; [exact E|]. split.
    - constructor; [|exact ND]. intros J. apply SP' in J as (x & Kx & B).
      pose proof (dlen_kid h L T r x I Kx). pose proof (dlen_below h L T x r (t_kids h L T r x I Kx) B). lia.
    - intros c [<-|J]; [constructor|]. apply SP' in J as (x & Kx & B). econstructor; eauto.
  Qed.

  Definition matched (f : filter) (c : ref) : bool :=
    match (do n <- deref h c; matches lower (n_entry n) f) with Ok b => b | Err _ => false end.
  Lemma try_match_fst f c s : fst (try_match lower h f c s) = s ++ (if matched f c then [c] else []).
  Proof.
    unfold try_match, matched. destruct (do n <- deref h c; matches lower (n_entry n) f) as [[]|]; cbn; now rewrite ?app_nil_r.
  Qed.
  Lemma fold_try f l : forall s, fold_left (fun s c => fst (try_match lower h f c s)) l s = s ++ List.filter (matched f) l.
  Proof.
    induction l as [|c l IH]; intros s; cbn [fold_left List.filter]; [now rewrite app_nil_r|]. rewrite IH, try_match_fst.
    destruct (matched f c); now rewrite <- app_assoc.
  Qed.
  Lemma matched_spec f c : matched f c = true <-> exists e, entry_at h c e /\ matches lower e f = Ok true.
  Proof.
    unfold matched, entry_at, deref. destruct (nth_error h c) as [n|]; cbn [bind].
    - destruct (matches lower (n_entry n) f) as [b|er] eqn:M.
      + split; [intros ->; eauto|]. intros (e & (m & [= <-] & <-) & E). rewrite M in E. now apply Ok_inj in E.
      + split; [discriminate|]. intros (e & (m & [= <-] & <-) & E). congruence.
    - split; [discriminate|]. intros (e & (m & ? & _) & _). discriminate.
  Qed.
  Lemma try_match_ok f c s : In c L -> can_match lower h f c -> try_match lower h f c s = (s ++ (if matched f c then [c] else []), None).
  Proof.
    intros I M. destruct (t_node h L T c I) as (n & N). destruct (M (n_entry n)) as (b & B); [exists n; auto|].
    unfold try_match, matched, deref. rewrite N. cbn [bind]. rewrite B. destruct b; now rewrite ?app_nil_r.
  Qed.

  Lemma each_child_ok f cs : forall s, Forall (fun c => In c L /\ can_match lower h f c) (map snd cs) ->
    each_child (try_match lower h f) cs s = (s ++ List.filter (matched f) (map snd cs), None).
  Proof.
    induction cs as [|(k & c) cs IH]; intros s F; cbn [each_child map snd List.filter]; [now rewrite app_nil_r|].
    inversion F as [|? ? (I & M) F']; subst. rewrite (try_match_ok f c s I M), (IH _ F'). destruct (matched f c); now rewrite <- app_assoc.
  Qed.

  (** C29 *)
  Lemma search_exact depth r f sc : In r L -> shallow h L r depth -> (forall c, in_scope h sc r c -> can_match lower h f c) ->
    exists l, search lower depth h r f sc = Ok l /\ NoDup l /\
      forall c, In c l <-> in_scope h sc r c /\ exists e, entry_at h c e /\ matches lower e f = Ok true.
  Proof.
    intros I Sh M. destruct (t_node h L T r I) as (n & N). unfold search. destruct sc; cbn [in_scope] in *.
    - rewrite (try_match_ok f r [] I (M r eq_refl)). cbn [app]. eexists. split; [reflexivity|]. rewrite <- matched_spec || idtac.
      destruct (matched f r) eqn:E.
      + split; [repeat constructor; intros []|]. intros c. cbn. rewrite <- matched_spec. split; [intros [<-|[]]; auto|intros (-> & _); now left].
      + split; [constructor|]. intros c. cbn. rewrite <- matched_spec. split; [intros []|intros (-> & ?); congruence].
    - rewrite N. rewrite each_child_ok.
      + cbn [app]. eexists. split; [reflexivity|]. assert (KD : map snd (n_children n) = kids h r) by (unfold kids; now rewrite N). rewrite KD.
        split; [apply NoDup_filter, (kids_nodup h L T r I)|]. intros c. rewrite filter_In, matched_spec. reflexivity.
      + apply Forall_forall. intros c J. assert (K : In c (kids h r)) by (unfold kids; now rewrite N).
        split; [eapply t_kids; eauto|now apply M].
    - destruct (subtree_visits h L T (list ref) (try_match lower h f) (fun c s => s ++ (if matched f c then [c] else [])) depth r [] I) as (l & E & ND & S).
      + intros c B. unfold dlen. pose proof (below_in h L T r c B I) as Ic. destruct (t_node h L T c Ic) as (m & Mm). rewrite Mm, N.
        exact (Sh c n m Ic N Mm).
      + intros c s B. apply try_match_ok; [eapply below_in; eauto|now apply M].
      + rewrite E. eexists. split; [reflexivity|].
        assert (X : fold_left (fun s c => s ++ (if matched f c then [c] else [])) l [] = List.filter (matched f) l).
        { clear. assert (G : forall s, fold_left (fun s c => s ++ (if matched f c then [c] else [])) l s = s ++ List.filter (matched f) l); [|apply (G [])].
          induction l as [|c l IH]; intros s; cbn; [now rewrite app_nil_r|]. rewrite IH. destruct (matched f c); now rewrite <- app_assoc. }
        rewrite X. split; [now apply NoDup_filter|]. intros c. rewrite filter_In, matched_spec, S. reflexivity.
  Qed.

  (** Never anything outside the scope, nothing that does not match, nothing twice, even when
      matching fails somewhere. *)
  Lemma search_sound depth r f sc l : In r L -> search lower depth h r f sc = Ok l ->
    NoDup l /\ forall c, In c l -> in_scope h sc r c /\ exists e, entry_at h c e /\ matches lower e f = Ok true.
  Proof.
    intros I. destruct (t_node h L T r I) as (n & N). unfold search. destruct sc; cbn [in_scope].
    - destruct (try_match lower h f r []) as (l0 & [x|]) eqn:E; [discriminate|]. intros [= <-].
      apply (f_equal fst) in E. rewrite try_match_fst in E. cbn in E. subst l0. destruct (matched f r) eqn:M.
      + split; [repeat constructor; intros []|]. intros c [<-|[]]. split; [reflexivity|now apply matched_spec].
      + split; [constructor|intros c []].
    - rewrite N. assert (KD : map snd (n_children n) = kids h r) by (unfold kids; now rewrite N).
      pose proof (kids_nodup h L T r I) as ND. rewrite <- KD in *.
      assert (G : forall cs s l0, each_child (try_match lower h f) cs s = (l0, None) -> l0 = s ++ List.filter (matched f) (map snd cs)).
      { induction cs as [|(k & c) cs IH]; intros s l0; cbn [each_child map snd List.filter].
        - intros [= <-]. now rewrite app_nil_r.
        - destruct (try_match lower h f c s) as (s1 & [x|]) eqn:E; [discriminate|]. intros H. apply IH in H. apply (f_equal fst) in E.
          rewrite try_match_fst in E. cbn in E. subst. destruct (matched f c); now rewrite <- app_assoc. }
      destruct (each_child (try_match lower h f) (n_children n) []) as (l0 & [x|]) eqn:E; [discriminate|]. intros [= <-].
      apply G in E. cbn in E. subst l0. split; [now apply NoDup_filter|]. intros c J. apply filter_In in J as (J & M).
      split; [exact J|now apply matched_spec].
    - destruct (subtree_some (try_match lower h f) depth r [] I) as (l0 & E & ND & S). rewrite fold_try in E. cbn in E.
      destruct (subtree (try_match lower h f) depth h r []) as (l1 & [x|]); [discriminate|]. cbn in E. intros [= <-]. subst l1.
      split; [now apply NoDup_filter|]. intros c J. apply filter_In in J as (J & M). split; [auto|now apply matched_spec].
  Qed.

  (** C30 for base and one-level scope. *)
  Lemma search_complete depth r f sc l : In r L -> sc <> ScSub -> search lower depth h r f sc = Ok l ->
    forall c, in_scope h sc r c -> can_match lower h f c /\ ((exists e, entry_at h c e /\ matches lower e f = Ok true) -> In c l).
  Proof.
    intros I NS. destruct (t_node h L T r I) as (n & N).
    assert (G1 : forall c s s1, try_match lower h f c s = (s1, None) -> can_match lower h f c).
    { intros c s s1. unfold try_match, can_match, entry_at, deref. destruct (nth_error h c) as [m|]; cbn [bind].
      - destruct (matches lower (n_entry m) f) as [b|er] eqn:M; [|discriminate]. intros _ e (m' & [= <-] & <-). eauto.
      - intros _ e (m' & ? & _). discriminate. }
    unfold search. destruct sc; [| |congruence]; cbn [in_scope].
    - destruct (try_match lower h f r []) as (l0 & [x|]) eqn:E; [discriminate|]. intros [= <-] c ->. split; [eapply G1; eauto|].
      intros X. apply matched_spec in X. apply (f_equal fst) in E. rewrite try_match_fst, X in E. cbn in E. subst. now left.
    - rewrite N. assert (KD : map snd (n_children n) = kids h r) by (unfold kids; now rewrite N). rewrite <- KD.
      assert (G : forall cs s l0, each_child (try_match lower h f) cs s = (l0, None) ->
                  l0 = s ++ List.filter (matched f) (map snd cs) /\ Forall (can_match lower h f) (map snd cs)).
      { induction cs as [|(k & c) cs IH]; intros s l0; cbn [each_child map snd List.filter].
        - intros [= <-]. now rewrite app_nil_r.
        - destruct (try_match lower h f c s) as (s1 & [x|]) eqn:E; [discriminate|]. intros H. apply IH in H as (H & F).
          split; [|constructor; [eapply G1; eauto|exact F]]. apply (f_equal fst) in E.
          rewrite try_match_fst in E. cbn in E. subst. destruct (matched f c); now rewrite <- app_assoc. }
      destruct (each_child (try_match lower h f) (n_children n) []) as (l0 & [x|]) eqn:E; [discriminate|]. intros [= <-] c J.
      apply G in E as (E & F). cbn in E. subst l0. rewrite Forall_forall in F. split; [auto|]. intros X. apply matched_spec in X.
      now apply filter_In.
  Qed.
End Search.

(** ** The attributes of a new entry *)
Section NewEntry.
  Variable lower : str -> str.
  Notation lowv := (lowv lower).
  Definition hasL (l : list aset) (k : pyval) : Prop := exists a, In a l /\ lowv (s_key a) = lowv k.
  Definition holdsL (l : list aset) (k v : pyval) : Prop := exists a, In a l /\ lowv (s_key a) = lowv k /\ In v (s_vals a).

  Lemma upd_has k f l k0 : hasL (dict_upd lower k f l) k0 <-> hasL l k0.
  Proof.
    induction l as [|a l IH]; cbn [dict_upd]; [reflexivity|]. unfold hasL in *. destruct (same_key lower k a) eqn:S.
    - split; intros (x & [<-|I] & E); cbn in E.
      + exists a. split; [now left|exact E].
      + exists x. split; [now right|exact E].
      + eexists. split; [left; reflexivity|exact E].
      + exists x. split; [now right|exact E].
    - split.
      + intros (x & [<-|I] & E); [exists a; split; [now left|exact E]|].
        destruct (proj1 IH (ex_intro _ x (conj I E))) as (y & Iy & Ey). exists y. split; [now right|exact Ey].
      + intros (x & [<-|I] & E); [exists a; split; [now left|exact E]|].
        destruct (proj2 IH (ex_intro _ x (conj I E))) as (y & Iy & Ey). exists y. split; [now right|exact Ey].
  Qed.
  Lemma upd_holds k vs l k0 v : holdsL (dict_upd lower k (fun old => old ++ vs) l) k0 v <->
    holdsL l k0 v \/ (hasL l k /\ lowv k = lowv k0 /\ In v vs).
  Proof.
    induction l as [|a l IH]; cbn [dict_upd].
    - split; [intros (x & [] & _)|intros [(x & [] & _)|((x & [] & _) & _)]].
    - destruct (same_key lower k a) eqn:S.
      + apply same_key_iff in S. split.
        * intros (x & [<-|I] & E & V); cbn in E, V.
          -- apply in_app_iff in V as [V|V]; [left; exists a; split; [now left|auto]|right].
             split; [exists a; split; [now left|congruence]|]. split; [congruence|exact V].
          -- left. exists x. split; [now right|auto].
        * intros [(x & [<-|I] & E & V)|(_ & E & V)].
          -- eexists. split; [left; reflexivity|]. cbn. split; [exact E|apply in_or_app; now left].
          -- exists x. split; [now right|auto].
          -- eexists. split; [left; reflexivity|]. cbn. split; [congruence|apply in_or_app; now right].
      + assert (N : lowv (s_key a) <> lowv k).
        { intros E. assert (same_key lower k a = true) by (apply same_key_iff; congruence). congruence. }
        assert (H0 : hasL (a :: l) k <-> hasL l k).
        { split; [intros (x & [<-|I] & E); [congruence|exists x; auto]|intros (x & I & E); exists x; split; [now right|exact E]]. }
        assert (HO : forall l', holdsL (a :: l') k0 v <-> holdsL [a] k0 v \/ holdsL l' k0 v).
        { intros l'. unfold holdsL. split.
          - intros (x & [<-|I] & E); [left; exists a; split; [now left|exact E]|right; exists x; auto].
          - intros [(x & [<-|[]] & E)|(x & I & E)]; [exists a; split; [now left|exact E]|exists x; split; [now right|exact E]]. }
        rewrite (HO l), (HO (dict_upd _ _ _ _)), H0, IH. tauto.
  Qed.
  Lemma init_loop_spec items : forall l k v,
    (hasL (init_loop lower items l) k <-> hasL l k \/ exists k' vs, In (k', vs) items /\ lowv k' = lowv k) /\
    (holdsL (init_loop lower items l) k v <-> holdsL l k v \/ exists k' vs, In (k', vs) items /\ lowv k' = lowv k /\ In v vs).
  Proof.
    induction items as [|(k1 & vs1) items IH]; intros l k v; cbn [init_loop].
    { split; (split; [tauto|]); intros [H|(k' & vs & [] & _)]; exact H. }
    set (l1 := match dict_get lower k1 l with Some _ => l | None => l ++ [mkSet k1 []] end).
    assert (H1 : forall k, hasL l1 k <-> hasL l k \/ lowv k1 = lowv k).
    { intros k0. unfold l1. destruct (dict_get lower k1 l) as [a|] eqn:D.
      - apply dict_get_some in D as (I & E). split; [tauto|]. intros [H|H]; [exact H|]. exists a. split; [exact I|congruence].
      - unfold hasL. split.
        + intros (a & I & E). apply in_app_iff in I as [I|[<-|[]]]; [left; eauto|now right].
        + intros [(a & I & E)|E]; [exists a; split; [apply in_or_app; now left|exact E]|]. eexists. split; [apply in_or_app; right; left; reflexivity|exact E]. }
    assert (H2 : forall k v, holdsL l1 k v <-> holdsL l k v).
    { intros k0 v0. unfold l1. destruct (dict_get lower k1 l); [reflexivity|]. unfold holdsL. split.
      - intros (a & I & E & V). apply in_app_iff in I as [I|[<-|[]]]; [eauto|destruct V].
      - intros (a & I & E). exists a. split; [apply in_or_app; now left|exact E]. }
    destruct (IH (dict_upd lower k1 (fun old => old ++ vs1) l1) k v) as (A & B0). rewrite A, B0, upd_has, upd_holds, H1, H2. split.
    - split.
      + intros [[H|H]|(k' & vs & I & E)]; [now left| |]; right; [exists k1, vs1; split; [now left|exact H]|exists k', vs; split; [now right|exact E]].
      + intros [H|(k' & vs & [[= <- <-]|I] & E)]; [tauto|tauto|]. right. eauto.
    - assert (hasL l1 k1) by (rewrite H1; now right). split.
      + intros [[H3|(_ & H3 & V)]|(k' & vs & I & E)]; [now left| |]; right; [exists k1, vs1; split; [now left|auto]|exists k', vs; split; [now right|exact E]].
      + intros [H3|(k' & vs & [[= <- <-]|I] & E & V)]; [tauto|tauto|]. right. eauto.
  Qed.

  Lemma new_entry_spec d items k v :
    (EntrySpec.has lower (new_entry lower d items) k <-> exists k' vs, In (k', vs) items /\ lowv k' = lowv k) /\
    (EntrySpec.holds lower (new_entry lower d items) k v <-> exists k' vs, In (k', vs) items /\ lowv k' = lowv k /\ In v vs).
  Proof.
    destruct (init_loop_spec items [] k v) as (A & B0). unfold EntrySpec.has, EntrySpec.holds, new_entry. cbn [e_attrs].
    assert (N1 : hasL [] k <-> False) by (split; [intros (a & [] & _)|intros []]).
    assert (N2 : holdsL [] k v <-> False) by (split; [intros (a & [] & _)|intros []]).
    rewrite N1 in A. rewrite N2 in B0. unfold hasL in A. unfold holdsL in B0. split.
    - symmetry. etransitivity; [|etransitivity; [symmetry; exact A|]]; [tauto|]. split.
      + intros (a & I & E). eexists. split; [apply in_map; exact I|exact E].
      + intros (a & I & E). apply in_map_iff in I as (x & <- & I). exists x. auto.
    - symmetry. etransitivity; [|etransitivity; [symmetry; exact B0|]]; [tauto|]. split.
      + intros (a & I & E & V). eexists. split; [apply in_map; exact I|]. cbn. split; [exact E|now apply In_set_of].
      + intros (a & I & E & V). apply in_map_iff in I as (x & <- & I). cbn in *. exists x. split; [exact I|]. split; [exact E|]. now apply (proj1 (In_set_of _ _)) in V.
  Qed.
End NewEntry.
