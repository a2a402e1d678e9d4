(** Proofs about moving a leaf in the in-memory directory. *)
From Verif Require Import Base BaseFacts Utf8Model DnModel DnSpec DnProofs EntryModel LdapSpec MatchModel InmemModel InmemSpec InmemProofs InmemHist.

(** What changing entries one by one leaves alone. *)
Definition frame (r : ref) (h h' : heap) : Prop :=
  forall q, match nth_error h q with
            | Some n => exists n', nth_error h' q = Some n' /\ n_parent n' = n_parent n /\ n_children n' = n_children n /\
                          n_dn n' = n_dn n /\ (q <> r -> n' = n)
            | None => nth_error h' q = None
            end.
Lemma frame_refl r h : frame r h h.
Proof. intros q. destruct (nth_error h q) as [n|]; [|reflexivity]. exists n. auto. Qed.
Lemma frame_trans r a b c : frame r a b -> frame r b c -> frame r a c.
Proof.
  intros A B0 q. specialize (A q). specialize (B0 q). destruct (nth_error a q) as [n|].
  - destruct A as (n1 & N1 & A1 & A2 & A3 & A4). rewrite N1 in B0. destruct B0 as (n2 & N2 & B1 & B2 & B3 & B4). exists n2.
    split; [exact N2|]. split; [congruence|]. split; [congruence|]. split; [congruence|]. intros Q. rewrite (B4 Q). auto.
  - now rewrite A in B0.
Qed.
Lemma upd_entry_frame h r f h' : upd_entry h r f = Ok h' -> (forall e e', f e = Ok e' -> e_dn e' = e_dn e) -> frame r h h'.
Proof.
  unfold upd_entry, deref. intros E D. destruct (nth_error h r) as [n|] eqn:N; [|discriminate]. cbn [bind] in E.
  destruct (f (n_entry n)) as [e|] eqn:F; [|discriminate]. cbn [bind] in E. apply Ok_inj in E. subst h'. intros q. rewrite nth_set_nth.
  destruct (Nat.eqb_spec r q) as [->|Q].
  - rewrite N. eexists. split; [reflexivity|]. cbn. split; [reflexivity|]. split; [reflexivity|]. split; [apply (D _ _ F)|congruence].
  - destruct (nth_error h q) as [m|]; [|reflexivity]. exists m. auto.
Qed.
Lemma each_av_frame f h r avs : (forall a e e', f a e = Ok e' -> e_dn e' = e_dn e) -> forall h' o, each_av f h r avs = (h', o) -> frame r h h'.
Proof.
  intros D. revert h. induction avs as [|a avs IH]; intros h h' o; cbn [each_av]; [intros [= <- _]; apply frame_refl|].
  destruct (upd_entry h r (f a)) as [h1|] eqn:U; [|intros [= <- _]; apply frame_refl]. intros H. eapply frame_trans; [eapply upd_entry_frame; eauto|eauto].
Qed.
Lemma remove_av_dn lower a e e' : remove_av lower a e = Ok e' -> e_dn e' = e_dn e.
Proof. unfold remove_av. rewrite bind_ok. intros (s & _ & H). rewrite bind_ok in H. destruct H as (l & _ & H). apply Ok_inj in H. now subst. Qed.
Lemma add_av_dn lower a e e' : add_av lower a e = Ok e' -> e_dn e' = e_dn e.
Proof. unfold add_av. rewrite bind_ok. intros (s & _ & H). rewrite bind_ok in H. destruct H as (l & _ & H). apply Ok_inj in H. now subst. Qed.

(** A rename that succeeds changes only the entry, and gives it the new DN. *)
Lemma rename_spec lower h r d h' : rename lower h r d = (h', Ok tt) ->
  (exists n', nth_error h' r = Some n' /\ n_dn n' = d) /\
  forall q, match nth_error h q with
            | Some n => exists n', nth_error h' q = Some n' /\ n_parent n' = n_parent n /\ n_children n' = n_children n /\ (q <> r -> n' = n)
            | None => nth_error h' q = None
            end.
Proof.
  unfold rename. destruct (nth_error h r) as [n|] eqn:N; [|discriminate]. destruct (n_dn n) as [|ord rest]; [discriminate|].
  destruct (each_av (remove_av lower) h r ord) as (h1 & [u|]) eqn:E1; [|discriminate]. destruct d as [|nrd drest]; [discriminate|].
  destruct (each_av (add_av lower) h1 r nrd) as (h2 & [u2|]) eqn:E2; [|discriminate].
  pose proof (frame_trans _ _ _ _ (each_av_frame _ _ _ _ (remove_av_dn lower) _ _ E1) (each_av_frame _ _ _ _ (add_av_dn lower) _ _ E2)) as F.
  unfold upd_entry, deref. destruct (nth_error h2 r) as [n2|] eqn:N2; [|discriminate]. cbn [bind]. intros [= <-]. split.
  - eexists. rewrite nth_set_nth, Nat.eqb_refl, N2. split; [reflexivity|]. reflexivity.
  - intros q. specialize (F q). rewrite nth_set_nth. destruct (Nat.eqb_spec r q) as [<-|Q].
    + rewrite N in *. rewrite N2 in *. destruct F as (n' & [= <-] & P & K & _). eexists. split; [reflexivity|]. cbn. split; [exact P|]. split; [exact K|congruence].
    + destruct (nth_error h q) as [m|]; [|exact F]. destruct F as (n' & N' & P & K & _ & Eq). exists n'. auto.
Qed.

Section Reloc.
  Variable lower : str -> str.
  Notation same := (same_dn lower).
  Variables (h h' : heap) (L : list ref) (c np : ref) (nrd : rdn).
  Hypothesis T : tree h L.
  Hypothesis SIB : forall r x y, In r L -> In x (kids h r) -> In y (kids h r) -> same (dn_at h x) (dn_at h y) -> x = y.
  Hypothesis Ic : In c L.
  Hypothesis Nc : c <> 0%nat.
  Hypothesis LF : kids h c = [].
  Hypothesis In_np : In np L.
  Hypothesis Npc : np <> c.
  Hypothesis FREE : forall x, In x L -> x <> c -> ~ same (dn_at h x) (nrd :: dn_at h np).
  (** What the move makes of the heap. *)
  Hypothesis H_node : forall q, In q L -> exists n, nth_error h' q = Some n.
  Hypothesis H_dn : forall q, In q L -> q <> c -> dn_at h' q = dn_at h q.
  Hypothesis H_dnc : dn_at h' c = nrd :: dn_at h np.
  Hypothesis H_kids : forall q x, In q L -> (In x (kids h' q) <-> (In x (kids h q) /\ x <> c) \/ (q = np /\ x = c)).
  Hypothesis H_nodup : forall q, In q L -> NoDup (kids h' q).

  Lemma reloc_tree : tree h' L.
  Proof.
    constructor.
    - apply (t_nodup h L T).
    - apply (t_root h L T).
    - exact H_node.
    - intros r x Ir K. apply H_kids in K as [(K & _)|(_ & ->)]; auto. eapply t_kids; eauto.
    - intros r x n m Ir K N M. assert (En : n_dn n = dn_at h' r) by (unfold dn_at; now rewrite N). assert (Em : n_dn m = dn_at h' x) by (unfold dn_at; now rewrite M).
      rewrite En, Em. apply (H_kids r x Ir) in K as [(K & Q)|(-> & ->)].
      + pose proof (t_kids h L T r x Ir K) as Ix. assert (r <> c) by (intros ->; rewrite LF in K; destruct K).
        rewrite (H_dn r Ir H), (H_dn x Ix Q). eapply kid_dn; eauto.
      + rewrite H_dnc, (H_dn np In_np Npc). eauto.
    - exact H_nodup.
    - intros a b x Ia Ib Ka Kb. apply (H_kids a x Ia) in Ka. apply (H_kids b x Ib) in Kb.
      destruct Ka as [(Ka & Qa)|(-> & ->)], Kb as [(Kb & Qb)|(-> & Qb)]; try congruence. eapply (t_one h L T); eauto.
    - intros x Ix Nx. destruct (Nat.eq_dec x c) as [->|Q].
      + exists np. split; [exact In_np|]. apply H_kids; auto.
      + destruct (t_up h L T x Ix Nx) as (r & Ir & K). exists r. split; [exact Ir|]. apply H_kids; auto.
  Qed.
  Lemma reloc_sib : forall r x y, In r L -> In x (kids h' r) -> In y (kids h' r) -> same (dn_at h' x) (dn_at h' y) -> x = y.
  Proof.
    intros r x y Ir Kx Ky S. apply (H_kids r x Ir) in Kx. apply (H_kids r y Ir) in Ky.
    destruct Kx as [(Kx & Qx)|(-> & ->)], Ky as [(Ky & Qy)|(Q1 & Q2)].
    - pose proof (t_kids h L T r x Ir Kx) as Ix. pose proof (t_kids h L T r y Ir Ky) as Iy. rewrite (H_dn x Ix Qx), (H_dn y Iy Qy) in S. exact (SIB r x y Ir Kx Ky S).
    - subst. exfalso. pose proof (t_kids h L T np x Ir Kx) as Ix. rewrite (H_dn x Ix Qx), H_dnc in S. eapply FREE; eauto.
    - exfalso. pose proof (t_kids h L T np y Ir Ky) as Iy. rewrite (H_dn y Iy Qy), H_dnc in S. apply (FREE y Iy Qy). now apply same_sym.
    - congruence.
  Qed.

  (** Looking up after the move. *)
  Lemma reloc_lookup depth d : (length d < depth)%nat ->
    lookup lower depth h' 0%nat d =
    if dn_eqb lower (nrd :: dn_at h np) d then Ok c
    else if dn_eqb lower (dn_at h c) d then Err ENoSuchObject else lookup lower depth h 0%nat d.
  Proof.
    intros D. destruct (lookup_root0 lower h' L reloc_tree reloc_sib depth d D) as (L1 & L2).
    destruct (lookup_root0 lower h L T SIB depth d D) as (K1 & K2).
    destruct (dn_eqb lower (nrd :: dn_at h np) d) eqn:E1.
    - apply L1; [exact Ic|]. rewrite H_dnc. now apply dn_eqb_spec.
    - assert (N1 : ~ same (dn_at h' c) d) by (rewrite H_dnc; intros S; apply dn_eqb_spec in S; congruence).
      destruct (dn_eqb lower (dn_at h c) d) eqn:E2.
      + apply L2. intros x Ix S. destruct (Nat.eq_dec x c) as [->|Q]; [contradiction|]. rewrite (H_dn x Ix Q) in S. apply dn_eqb_spec in E2.
        apply Q. eapply (unique0 lower h L T SIB); eauto. eapply same_trans; [exact S|now apply same_sym].
      + assert (N2 : ~ same (dn_at h c) d) by (intros S; apply dn_eqb_spec in S; congruence).
        assert (DEC : (exists x, In x L /\ same (dn_at h x) d) \/ forall x, In x L -> ~ same (dn_at h x) d).
        { clear. induction L as [|y l IH]; [right; intros x []|]. destruct IH as [(x & I & S)|N]; [left; exists x; split; [now right|exact S]|].
          destruct (dn_eqb lower (dn_at h y) d) eqn:E; [left; exists y; split; [now left|now apply dn_eqb_spec]|].
          right. intros x [<-|I]; [intros S; apply dn_eqb_spec in S; congruence|auto]. }
        destruct DEC as [(x & Ix & S)|N].
        * assert (Q : x <> c) by (intros ->; contradiction). rewrite (L1 x Ix), (K1 x Ix); auto. now rewrite (H_dn x Ix Q).
        * rewrite L2, K2; auto. intros x Ix S. destruct (Nat.eq_dec x c) as [->|Q]; [contradiction|]. rewrite (H_dn x Ix Q) in S. now apply (N x Ix).
  Qed.
End Reloc.

Section Move.
  Variable lower : str -> str.
  Variable C : rdn -> Prop.
  Hypothesis CC : consistent lower C.
  Notation same := (same_dn lower).

  Lemma root_of_root rt h L fuel : inv C rt h L -> forall r r', In r L -> root_of fuel h r = Ok r' -> r' = 0%nat.
  Proof.
    intros I. pose proof (i_tree C rt h L I) as T. induction fuel as [|f IH]; intros r r' Ir E; [discriminate|].
    cbn [root_of] in E. destruct (t_node h L T r Ir) as (n & N). unfold deref in E. rewrite N in E. cbn [bind] in E.
    destruct (Nat.eq_dec r 0) as [->|Nr].
    - destruct (i_root C rt h L I) as (n0 & N0 & P & _). rewrite N0 in N. injection N as <-. rewrite P in E. now apply Ok_inj in E.
    - destruct (t_up h L T r Ir Nr) as (p & Ip & K). destruct (t_node h L T p Ip) as (m & M). destruct (i_keys C rt h L I p m Ip M) as (F & _).
      unfold kids in K. rewrite M in K. apply in_map_iff in K as (x & <- & J). rewrite Forall_forall in F. destruct (F x J) as (n' & ? & ? & N' & _ & _ & _ & P).
      rewrite N in N'. injection N' as <-. rewrite P in E. eapply IH; eauto.
  Qed.

  (** C32 for a leaf *)
  Lemma move_leaf rt h L c np nrd depth h' :
    inv C rt h L -> In c L -> c <> 0%nat -> kids h c = [] -> In np L -> np <> c -> C nrd ->
    (length (dn_at h np) < depth)%nat ->
    (forall x, In x L -> x <> c -> ~ same (dn_at h x) (nrd :: dn_at h np)) ->
    move lower depth h c (nrd :: dn_at h np) = (h', Ok tt) ->
    tree h' L /\
    forall d, (length d < depth)%nat ->
      lookup lower depth h' 0%nat d =
      if dn_eqb lower (nrd :: dn_at h np) d then Ok c
      else if dn_eqb lower (dn_at h c) d then Err ENoSuchObject else lookup lower depth h 0%nat d.
  Proof.
    intros I Ic Nc LF Inp Npc Cn Dp FREE MV. pose proof (i_tree C rt h L I) as T. pose proof (siblings lower C CC rt h L I) as SIB.
    destruct (t_up h L T c Ic Nc) as (p & Ip & Kp). destruct (dn_at_kid C rt h L I p c Ip Kp) as (ord & Ec & Co & mp & Mp & Jc).
    assert (Hpc : p <> c) by (intros ->; pose proof (dlen_kid h L T c c Ic Kp); lia).
    destruct (at_node h L T c Ic) as (n & N & En).
    enough (X : (forall q, In q L -> exists n, nth_error h' q = Some n) /\ (forall q, In q L -> q <> c -> dn_at h' q = dn_at h q) /\
                dn_at h' c = nrd :: dn_at h np /\
                (forall q x, In q L -> (In x (kids h' q) <-> (In x (kids h q) /\ x <> c) \/ (q = np /\ x = c))) /\
                (forall q, In q L -> NoDup (kids h' q))).
    { destruct X as (X1 & X2 & X3 & X4 & X5). split.
      - eapply (reloc_tree h h' L c np nrd T); eauto.
      - intros d D. eapply (reloc_lookup lower h h' L c np nrd T SIB); eauto. }
    unfold move in MV. rewrite (proj2 (deref_ok h c n) N) in MV. rewrite En, Ec in MV. cbn [dn_up tl] in MV.
    destruct (dn_eqb lower (dn_at h np) (dn_at h p)) eqn:SP; cbn [negb] in MV.
    - apply dn_eqb_spec in SP. assert (np = p) as -> by (eapply (unique lower C CC rt h L I); eauto).
      apply rename_spec in MV as ((n' & N' & D') & F).
      assert (KE : forall q, In q L -> kids h' q = kids h q).
      { intros q Iq. unfold kids. specialize (F q). destruct (t_node h L T q Iq) as (m & M). rewrite M in *. destruct F as (m' & M' & _ & K & _). now rewrite M', K. }
      split; [|split; [|split; [|split]]].
      + intros q Iq. specialize (F q). destruct (t_node h L T q Iq) as (m & M). rewrite M in F. destruct F as (m' & M' & _). eauto.
      + intros q Iq Q. specialize (F q). destruct (t_node h L T q Iq) as (m & M). unfold dn_at. rewrite M in *. destruct F as (m' & M' & _ & _ & E). now rewrite M', (E Q).
      + unfold dn_at at 1. now rewrite N'.
      + intros q x Iq. rewrite (KE q Iq). split.
        * intros K. destruct (Nat.eq_dec x c) as [->|Q]; [|now left]. right. split; [|reflexivity]. eapply (t_one h L T); eauto.
        * intros [(K & _)|(-> & ->)]; [exact K|exact Kp].
      + intros q Iq. rewrite (KE q Iq). now apply (t_nodup_kids h L T).
    - assert (Nnp : np <> p).
      { intros ->. assert (dn_eqb lower (dn_at h p) (dn_at h p) = true) by apply dn_eqb_spec, same_refl. congruence. }
      destruct (root_of depth h c) as [r0|] eqn:RO; [|discriminate]. apply (root_of_root rt h L depth I c r0 Ic) in RO as ->. cbn [bind] in MV.
      destruct (lookup_root lower C CC rt h L I depth (dn_at h np) Dp) as (LK & _). rewrite (LK np Inp (same_refl lower _)) in MV.
      destruct (t_node h L T np Inp) as (m & M). unfold relink in MV. rewrite (proj2 (deref_ok h np m) M) in MV.
      assert (KN : ~ In (rdn_text nrd) (map fst (n_children m))).
      { intros J. apply in_map_iff in J as (x & Ex & J). destruct (i_keys C rt h L I np m Inp M) as (F & _). rewrite Forall_forall in F.
        destruct (F x J) as (y & rd & rest & Ny & Ey & Ek & Cr & _). assert (Kx : In (snd x) (kids h np)) by (unfold kids; rewrite M; now apply in_map).
        pose proof (t_kids h L T np (snd x) Inp Kx) as Ix. assert (Q : snd x <> c).
        { intros Q. rewrite Q in Kx. apply Nnp. eapply (t_one h L T); eauto. }
        apply (FREE _ Ix Q). destruct (dn_at_kid C rt h L I np (snd x) Inp Kx) as (rd' & E' & _). unfold dn_at in E' at 1. rewrite Ny, Ey in E'. injection E' as <- E'.
        unfold dn_at at 1. rewrite Ny, Ey. apply same_cons. split; [|rewrite E'; apply same_refl]. apply (CC rd nrd Cr Cn). congruence. }
      rewrite (key_set_new _ _ _ KN) in MV.
      set (m1 := set_children m (n_children m ++ [(rdn_text nrd, c)])) in MV.
      set (h1 := set_nth np m1 h) in MV.
      assert (N1 : forall q, nth_error h1 q = if Nat.eqb np q then Some m1 else nth_error h q).
      { intros q. unfold h1. rewrite nth_set_nth. destruct (Nat.eqb np q); [now rewrite M|reflexivity]. }
      assert (N1c : nth_error h1 c = Some n) by (rewrite N1; destruct (Nat.eqb_spec np c); [congruence|exact N]).
      assert (N1p : nth_error h1 p = Some mp) by (rewrite N1; destruct (Nat.eqb_spec np p); [congruence|exact Mp]).
      assert (Pn : n_parent n = Some p).
      { destruct (i_keys C rt h L I p mp Ip Mp) as (F & _). rewrite Forall_forall in F. destruct (F _ Jc) as (n' & ? & ? & N' & _ & _ & _ & P). cbn [snd] in N'. congruence. }
      rewrite (proj2 (deref_ok h1 c n) N1c) in MV. cbn [bind] in MV. rewrite Pn, En, Ec in MV. rewrite (proj2 (deref_ok h1 p mp) N1p) in MV. cbn [bind] in MV.
      destruct (key_get (rdn_text ord) (n_children mp)) as [c'|] eqn:KG; [|discriminate].
      unfold unlink in MV. rewrite N1c, Pn, En, Ec, N1p in MV.
      set (mp1 := set_children mp (key_del (rdn_text ord) (n_children mp))) in MV. set (h2 := set_nth p mp1 h1) in MV.
      assert (N2 : forall q, nth_error h2 q = if Nat.eqb p q then Some mp1 else if Nat.eqb np q then Some m1 else nth_error h q).
      { intros q. unfold h2. rewrite nth_set_nth, N1p, N1. reflexivity. }
      apply rename_spec in MV as ((n' & N' & D') & F).
      assert (NK : NoDup (map snd (n_children mp))) by (pose proof (t_nodup_kids h L T p Ip) as X; unfold kids in X; now rewrite Mp in X).
      destruct (i_keys C rt h L I p mp Ip Mp) as (FK & NDK).
      assert (FD : forall x, In x (n_children mp) -> (fst x = rdn_text ord <-> snd x = c)).
      { intros x Jx. split; intros E.
        - clear - NDK Jc Jx E. induction (n_children mp) as [|y cs IH]; [destruct Jc|]. cbn in NDK. inversion NDK as [|? ? Nk ND']; subst.
          destruct Jx as [->|Jx], Jc as [E'|Jc]; [subst; reflexivity| | |auto].
          + exfalso. apply Nk. rewrite E. change (rdn_text ord) with (fst (rdn_text ord, c)). now apply in_map.
          + subst y. exfalso. apply Nk. cbn. rewrite <- E. now apply in_map.
        - clear - NK Jc Jx E. induction (n_children mp) as [|y cs IH]; [destruct Jc|]. cbn in NK. inversion NK as [|? ? Nk ND']; subst.
          destruct Jx as [->|Jx], Jc as [E'|Jc]; [now rewrite E'| | |auto].
          + exfalso. apply Nk. change (snd x) with (snd (rdn_text ord, snd x)). now apply in_map.
          + subst y. exfalso. apply Nk. cbn. now apply in_map. }
      assert (KE : forall q, In q L -> kids h' q = kids h2 q).
      { intros q Iq. unfold kids. specialize (F q). destruct (nth_error h2 q) as [y|] eqn:Y.
        - destruct F as (y' & Y' & _ & K & _). now rewrite Y', K.
        - now rewrite F. }
      assert (Kp2 : kids h2 p = map snd (key_del (rdn_text ord) (n_children mp))) by (unfold kids; now rewrite N2, Nat.eqb_refl).
      assert (Knp2 : kids h2 np = kids h np ++ [c]).
      { unfold kids. rewrite N2. destruct (Nat.eqb_spec p np); [congruence|]. rewrite Nat.eqb_refl, M. unfold m1, set_children. cbn [n_children]. now rewrite map_app. }
      assert (Ko2 : forall q, q <> p -> q <> np -> kids h2 q = kids h q).
      { intros q Q1 Q2. unfold kids. rewrite N2. destruct (Nat.eqb_spec p q); [congruence|]. destruct (Nat.eqb_spec np q); [congruence|reflexivity]. }
      split; [|split; [|split; [|split]]].
      + intros q Iq. specialize (F q). rewrite N2 in F. destruct (t_node h L T q Iq) as (y & Y). rewrite Y in F.
        destruct (Nat.eqb p q); [|destruct (Nat.eqb np q)]; destruct F as (y' & Y' & _); eauto.
      + intros q Iq Q. specialize (F q). rewrite N2 in F. destruct (t_node h L T q Iq) as (y & Y). unfold dn_at. rewrite Y in *.
        destruct (Nat.eqb_spec p q) as [<-|]; [|destruct (Nat.eqb_spec np q) as [<-|]]; destruct F as (y' & Y' & _ & _ & E); rewrite Y', (E Q).
        * assert (y = mp) by congruence. subst. reflexivity.
        * assert (y = m) by congruence. subst. reflexivity.
        * reflexivity.
      + unfold dn_at at 1. now rewrite N'.
      + intros q x Iq. rewrite (KE q Iq). destruct (Nat.eq_dec q p) as [->|Q1].
        * rewrite Kp2. unfold kids. rewrite Mp. rewrite !in_map_iff. split.
          -- intros (y & <- & J). apply key_del_in in J as (J & Q). left. split; [eauto|]. intros E. apply Q. now apply FD.
          -- intros [((y & <- & J) & Q)|(Q & _)]; [|congruence]. exists y. split; [reflexivity|]. apply key_del_in. split; [exact J|]. intros E. apply Q. now apply (FD y J).
        * destruct (Nat.eq_dec q np) as [->|Q2].
          -- rewrite Knp2, in_app_iff. cbn. split.
             ++ intros [K|[<-|[]]]; [|auto]. left. split; [exact K|]. intros ->. apply Nnp. eapply (t_one h L T); eauto.
             ++ intros [(K & _)|(_ & ->)]; auto.
          -- rewrite (Ko2 q Q1 Q2). split; [|intros [(K & _)|(? & _)]; [exact K|congruence]]. intros K. left. split; [exact K|].
             intros ->. apply Q1. eapply (t_one h L T); eauto.
      + intros q Iq. rewrite (KE q Iq). destruct (Nat.eq_dec q p) as [->|Q1].
        * rewrite Kp2. clear - NK. unfold key_del. induction (n_children mp) as [|z cs IH]; cbn; [constructor|]. cbn in NK. inversion NK as [|? ? Nk X']; subst.
          destruct (str_eqb (fst z) (rdn_text ord)); cbn; [auto|]. constructor; [|auto]. intros J. apply Nk.
          apply in_map_iff in J as (y & E & J). apply filter_In in J as (J & _). rewrite <- E. now apply in_map.
        * destruct (Nat.eq_dec q np) as [->|Q2]; [|rewrite (Ko2 q Q1 Q2); now apply (t_nodup_kids h L T)].
          rewrite Knp2. apply NoDup_app_intro2; [now apply (t_nodup_kids h L T)|repeat constructor; intros []|].
          intros x K [<-|[]]. apply Nnp. eapply (t_one h L T); eauto.
  Qed.
End Move.

Lemma canonical_consistent lower : consistent lower (canonical lower).
Proof.
  intros a b (Oa & Na & La) (Ob & Nb & Lb). rewrite rdn_eqb_spec. split.
  - intros S. f_equal. clear - S La Lb. revert La Lb. induction S as [|x y a b (T & V) S IH]; intros La Lb; [reflexivity|].
    inversion La as [|? ? (L1 & L2) La']; inversion Lb as [|? ? (L3 & L4) Lb']; subst. f_equal; [|auto].
    destruct x, y; cbn in *; congruence.
  - intros E. assert ([a] = [b]) as [= ->].
    { apply dn_text_inj.
      - split; [now repeat constructor|]. intros [= ->]. congruence.
      - split; [now repeat constructor|]. intros [= ->]. congruence.
      - unfold dn_text. cbn. now rewrite E. }
    clear. induction b; constructor; [split; reflexivity|assumption].
Qed.

Section MoveHist.
  Variable lower : str -> str.
  Variable C : rdn -> Prop.
  Hypothesis CC : consistent lower C.

  (** C32 in terms of lookups *)
  Lemma move_history rt a depth xs h' old parent nrd c np :
    Forall (hop_ok C depth) xs ->
    let h := fst (do_hops lower depth xs (start lower rt a)) in
    (length old < depth)%nat -> (length (nrd :: parent) < depth)%nat ->
    lookup lower depth h 0%nat old = Ok c -> c <> 0%nat -> kids h c = [] ->
    lookup lower depth h 0%nat parent = Ok np -> (exists e, entry_at h np e /\ e_dn e = parent) -> np <> c -> C nrd ->
    (lookup lower depth h 0%nat (nrd :: parent) = Err (ELdap 32) \/ lookup lower depth h 0%nat (nrd :: parent) = Ok c) ->
    move lower depth h c (nrd :: parent) = (h', Ok tt) ->
    (exists L, tree h L /\ tree h' L) /\
    forall d, (length d < depth)%nat ->
      lookup lower depth h' 0%nat d =
      if dn_eqb lower (nrd :: parent) d then Ok c
      else if dn_eqb lower old d then Err (ELdap 32) else lookup lower depth h 0%nat d.
  Proof.
    intros F h Lo Ln Eo Nc K Ep (e & (n & N & <-) & Ee) Q Cn Free MV.
    pose proof (hops_sim lower C CC rt depth xs _ _ _ (start_sim lower C rt a) F) as HS.
    subst h. destruct (do_hops lower depth xs (start lower rt a)) as (h & os), (spec_hops lower rt xs [(rt, a)]) as (M & os').
    destruct HS as (_ & L & I & _). cbn [fst] in *.
    assert (DEC : forall d x, (length d < depth)%nat -> lookup lower depth h 0%nat d = Ok x -> In x L /\ same_dn lower (dn_at h x) d).
    { intros d x D E. destruct (lookup_root lower C CC rt h L I depth d D) as (L1 & L2).
      assert (X : (exists x, In x L /\ same_dn lower (dn_at h x) d) \/ forall x, In x L -> ~ same_dn lower (dn_at h x) d).
      { clear. induction L as [|y l IH]; [right; intros x []|]. destruct IH as [(x & I & S)|N]; [left; exists x; split; [now right|exact S]|].
        destruct (dn_eqb lower (dn_at h y) d) eqn:E; [left; exists y; split; [now left|now apply dn_eqb_spec]|].
        right. intros x [<-|I]; [intros S; apply dn_eqb_spec in S; congruence|auto]. }
      destruct X as [(y & Iy & S)|X]; [|rewrite (L2 X) in E; discriminate]. rewrite (L1 y Iy S) in E. apply Ok_inj in E. now subst. }
    cbn [length] in Ln. destruct (DEC old c Lo Eo) as (Ic & So). destruct (DEC parent np ltac:(lia) Ep) as (Inp & _).
    assert (Dp : dn_at h np = parent) by (unfold dn_at; now rewrite N). rewrite <- Dp in *.
    destruct (lookup_root lower C CC rt h L I depth (nrd :: dn_at h np) ltac:(cbn [length]; lia)) as (L1 & _).
    destruct (move_leaf lower C CC rt h L c np nrd depth h' I Ic Nc K Inp Q Cn) as (T' & LK); [lia| |exact MV|].
    - intros x Ix Qx S. rewrite (L1 x Ix S) in Free. destruct Free as [Free|Free]; [discriminate|]. apply Ok_inj in Free. congruence.
    - split; [exists L; split; [apply (i_tree C rt h L I)|exact T']|]. intros d D. rewrite (LK d D).
      destruct (dn_eqb lower (nrd :: dn_at h np) d); [reflexivity|].
      replace (dn_eqb lower old d) with (dn_eqb lower (dn_at h c) d); [reflexivity|].
      apply eq_true_iff_eq. rewrite !dn_eqb_spec. split; intros S; [eapply same_trans; [apply same_sym; exact So|exact S]|eapply same_trans; eauto].
  Qed.
End MoveHist.
