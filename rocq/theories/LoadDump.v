(** Proofs about writing a directory as LDIF and loading it again (C80). *)
From Coq Require Import Permutation.
From Verif Require Import Base BaseFacts Utf8Model DnModel DnSpec DnProofs EntryModel EntrySpec EntryProofs LdapSpec MatchModel
  UtilModel LdifModel LdifSpec LdifProofs LdifRead LdifRound InmemModel InmemSpec InmemProofs InmemHist ServerModel LoadModel LoadSpec LoadProofs.

(** ** The order of subtree() *)
Section Order.
  Variables (h : heap) (L : list ref).
  Hypothesis T : tree h L.
  Notation walk := (subtree (fun c s => (s ++ [c], None))).
  (** Every reference after the first comes after one that has it as a child. *)
  Definition after_parent (l : list ref) : Prop :=
    forall before c after, l = before ++ c :: after -> before <> [] -> exists p, In p before /\ In c (kids h p).

  Lemma subtree_order depth : forall r s, In r L -> (forall c, below h r c -> (dlen h c - dlen h r < depth)%nat) ->
    exists l, walk depth h r s = (s ++ r :: l, None) /\ NoDup (r :: l) /\ (forall c, In c (r :: l) <-> below h r c) /\ after_parent (r :: l).
  Proof.
    induction depth as [|depth IH]; intros r s I D.
    { specialize (D r (below_refl h r)). lia. }
    cbn [subtree]. destruct (t_node h L T r I) as (n & N). rewrite N.
    assert (KD : kids h r = map snd (n_children n)) by (unfold kids; now rewrite N).
    set (pop := fix pop cs s := match cs with [] => s | (_, c) :: rest =>
            match walk depth h c s with (s1, None) => pop rest s1 | (s1, Some _) => s1 end end).
    assert (P : forall cs s, (forall x, In x (map snd cs) -> In x (kids h r)) -> NoDup (map snd cs) ->
              exists l, pop cs s = s ++ l /\ NoDup l /\
                (forall c, In c l <-> exists x, In x (map snd cs) /\ below h x c) /\
                (forall before c after, l = before ++ c :: after -> In c (kids h r) \/ exists p, In p before /\ In c (kids h p))).
    { induction cs as [|(k & x) cs IHc]; intros s0 Sub ND.
      - exists []. split; [symmetry; apply app_nil_r|]. split; [constructor|]. split; [intros c; split; [intros []|intros (y & [] & _)]|]. intros [|? before]; discriminate.
      - assert (Kx : In x (kids h r)) by (apply Sub; now left). pose proof (t_kids h L T r x I Kx) as Ix. pose proof (dlen_kid h L T r x I Kx) as Dx.
        destruct (IH x s0 Ix) as (l1 & E1 & N1 & S1 & O1).
        { intros c B. assert (below h r c) by (econstructor; eauto). pose proof (dlen_below h L T x c Ix B). specialize (D c H). lia. }
        inversion ND as [|? ? Nx ND']; subst.
        destruct (IHc (s0 ++ x :: l1)) as (l2 & E2 & N2 & S2 & O2); [intros y Iy; apply Sub; now right|exact ND'|].
        exists ((x :: l1) ++ l2). cbn [pop]. rewrite E1. fold pop. rewrite E2, app_assoc. split; [reflexivity|]. split; [|split].
        + apply NoDup_app_intro2; [exact N1|exact N2|]. intros c J1 J2. apply S1 in J1. apply S2 in J2 as (y & Iy & By).
          assert (Ky : In y (kids h r)) by (apply Sub; now right). assert (x = y) by exact (kids_apart h L T r x y c I Kx Ky J1 By). congruence.
        + intros c. rewrite in_app_iff, S1, S2. cbn [map snd In]. split.
          * intros [B|(y & Iy & By)]; [exists x; auto|exists y; auto].
          * intros (y & [<-|Iy] & By); [now left|right; eauto].
        + intros before c after E. assert (C2 : (exists w, x :: l1 = before ++ c :: w) \/ exists w, before = (x :: l1) ++ w /\ l2 = w ++ c :: after).
          { clear - E. revert before E. generalize (x :: l1) as u. induction u as [|a u IHu]; intros before E; cbn [app] in E; [right; exists before; auto|].
            destruct before as [|b before]; cbn [app] in E; injection E as -> E; [left; exists u; reflexivity|].
            destruct (IHu before E) as [(w & ->)|(w & -> & ->)]; [left; exists w; reflexivity|right; exists w; auto]. }
          destruct C2 as [(w & E')|(w & -> & E')].
          * destruct before as [|b before]; [left; injection E' as <- _; exact Kx|]. right. apply (O1 (b :: before) c w E'). discriminate.
          * destruct (O2 w c after E') as [J|(p & Ip & J)]; [now left|right]. exists p. split; [apply in_or_app; now right|exact J]. }
    destruct (P (rev (n_children n)) (s ++ [r])) as (l & E & ND & SP & OP).
    { intros x J. rewrite map_rev, <- in_rev in J. now rewrite KD. }
    { rewrite map_rev. apply NoDup_rev. rewrite <- KD. now apply (kids_nodup h L T). }
    exists l. split; [rewrite E, <- app_assoc; reflexivity|]. split; [|split].
    - constructor; [|exact ND]. intros J. apply SP in J as (x & Kx & B). rewrite map_rev, <- in_rev, <- KD in Kx.
      pose proof (dlen_kid h L T r x I Kx). pose proof (dlen_below h L T x r (t_kids h L T r x I Kx) B). lia.
    - intros c. cbn [In]. rewrite SP. split.
      + intros [<-|(x & Kx & B)]; [constructor|]. rewrite map_rev, <- in_rev, <- KD in Kx. econstructor; eauto.
      + intros B. inversion B as [|? x ? Kx B']; subst; [now left|right]. exists x. rewrite map_rev, <- in_rev, <- KD. auto.
    - intros before c after E' NE. destruct before as [|b before]; [congruence|]. injection E' as <- E'.
      destruct (OP before c after E') as [J|(p & Ip & J)]; [exists r; split; [now left|exact J]|exists p; split; [now right|exact J]].
  Qed.
End Order.

(** ** What entries say, for entries of octets *)
Section Says.
  Variable lower : str -> str.
  Definition all_octets (e : entry) : Prop :=
    forall a, In a (e_attrs e) -> (exists k, s_key a = PBytes k) /\ forall v, In v (s_vals a) -> exists b, v = PBytes b.
  Lemma says_holds e k v : all_octets e -> says e k v <-> holds lower e (PBytes k) (PBytes v).
  Proof.
    intros O. split.
    - intros (a & k' & I & T & Lk & (w & Iw & Tw)). destruct (O a I) as ((kb & K) & V). destruct (V w Iw) as (b & ->). exists a. split; [exact I|].
      rewrite K in *. cbn in T, Tw. apply Ok_inj in T, Tw. subst. cbn [lowv]. split; [now rewrite Lk|exact Iw].
    - intros (a & I & Lk & J). destruct (O a I) as ((kb & K) & _). rewrite K in Lk. cbn [lowv] in Lk. assert (Q : lower_bytes kb = lower_bytes k) by congruence.
      exists a, kb. rewrite K. split; [exact I|]. split; [reflexivity|]. split; [exact Q|]. exists (PBytes v). auto.
  Qed.
  Lemma same_attrs_says e e' : all_octets e' -> same_attrs lower e e' -> forall k v, says e k v <-> says e' k v.
  Proof.
    intros O (HK & HV) k v. assert (O' : all_octets e).
    { intros a I. split.
      - destruct (proj1 (HK (s_key a))) as (b & Ib & Lb). { exists a. auto. }
        destruct (O b Ib) as ((kb & K) & _). rewrite K in Lb. destruct (s_key a); [discriminate|eauto].
      - intros w J. destruct (proj1 (HV (s_key a) w)) as (b & Ib & _ & Jb). { exists a. auto. } now apply (O b Ib). }
    rewrite (says_holds e k v O'), (says_holds e' k v O). apply HV.
  Qed.
End Says.

Lemma F2_impl {A D} (P Q : A -> D -> Prop) l m : (forall x y, P x y -> Q x y) -> Forall2 P l m -> Forall2 Q l m.
Proof. intros H. induction 1; constructor; auto. Qed.

Section Dump.
  Variable lower : str -> str.
  Variable io : Z -> Z -> res Z.
  Variable vio : str -> res Z.
  Variable oc : bool.
  Variable depth : nat.
  Variable C : rdn -> Prop.
  Hypothesis CC : consistent lower C.
  Hypothesis LOC : lower_oc lower.
  Notation same := (same_dn lower).

  Lemma short_part a t b : short_lines (a ++ t ++ b) -> short_lines t.
  Proof.
    intros S x l y E N. apply (S (a ++ x) l (y ++ b)); [|exact N]. rewrite E, <- !app_assoc. reflexivity.
  Qed.
  Lemma short_concat a ws : short_lines (a ++ concat ws) -> Forall short_lines ws.
  Proof.
    intros S. apply Forall_forall. intros w I. apply in_split in I as (u & v & ->). rewrite concat_app in S. cbn [concat] in S.
    apply (short_part (a ++ concat u) w (concat v)). now rewrite <- app_assoc.
  Qed.
  Lemma order_dns es es' : Forall2 (fun e e' => e_dn e' = e_dn e) es es' -> in_order lower es -> in_order lower es'.
  Proof.
    intros F IO before e' after -> NE. apply Forall2_app_inv_r in F as (b & x & Fb & Fx & ->). inversion Fx as [|e ? r ? E Fr]; subst.
    assert (NM : forall d, named lower b d <-> named lower before d).
    { intros d. split; intros (z & I & S).
      - destruct (F2_In_l _ _ _ _ Fb I) as (z' & I' & Ez). exists z'. split; [exact I'|now rewrite Ez].
      - destruct (F2_In_r _ _ _ _ Fb I) as (z' & I' & Ez). exists z'. split; [exact I'|now rewrite <- Ez]. }
    destruct (IO b e r eq_refl) as ((rd & p & Ed & N) & NN). { intros ->. inversion Fb; congruence. }
    split.
    - exists rd, p. split; [congruence|now apply NM].
    - rewrite E. intros Q. apply NN. now apply NM.
  Qed.

  Lemma dump_load h L : tree h L ->
    (forall r s, In r L -> In s L -> same (dn_at h r) (dn_at h s) -> r = s) ->
    (forall c, In c L -> (length (dn_at h c) < depth)%nat) ->
    (forall c rd p, In c L -> c <> 0%nat -> dn_at h c = rd :: p -> C rd) ->
    (forall c e, In c L -> entry_at h c e -> ldif_entry_ok lower e) ->
    exists text, dump lower oc depth h = Ok text /\
      (short_lines text -> exists h' L', fromLDIFFile lower io vio oc depth text = LDone h' /\ tree h' L' /\
         (forall c e, In c L -> entry_at h c e -> exists r e', lookup lower depth h' 0%nat (e_dn e) = Ok r /\ entry_at h' r e' /\
            same (e_dn e') (e_dn e) /\ forall k v, says e' k v <-> says e k v) /\
         forall d, (length d < depth)%nat -> (forall c, In c L -> ~ same (dn_at h c) d) -> lookup lower depth h' 0%nat d = Err (ELdap 32)).
  Proof.
    intros T U D Crd EO.
    destruct (subtree_order h L T depth 0%nat [] (t_root h L T)) as (l & W & ND & B0 & AP).
    { intros c B. rewrite !dlen_at. assert (In c L) as Ic.
      { clear - T B. pose proof (t_root h L T) as I. revert I. induction B; intros I; [exact I|]. apply IHB. eapply (t_kids h L T); eauto. }
      specialize (D c Ic). lia. }
    assert (IL : forall c, In c (0%nat :: l) <-> In c L).
    { intros c. rewrite B0. split; [|apply (root_below h L T)]. intros B. pose proof (t_root h L T) as I. revert I. clear - T B. induction B; intros I; [exact I|].
      apply IHB. eapply (t_kids h L T); eauto. }
    assert (X : exists rs : list ref, (exists rs' : list ref, rs = (0%nat : ref) :: rs') /\ subtree (fun c s => (s ++ [c], None)) depth h 0%nat [] = (rs, None) /\
              NoDup rs /\ (forall c : ref, In c rs <-> In c L) /\ after_parent h rs).
    { exists (0%nat :: l). split; [eauto|]. split; [exact W|]. auto. }
    clear l W ND B0 AP IL. destruct X as (rs & R0 & W & ND & IL & AP). unfold dump. rewrite W.
    destruct (mapR_ex (fun c => do n <- deref h c; Ok (n_entry n)) rs) as (es & E).
    { intros c I. apply IL in I. destruct (t_node h L T c I) as (n & N). unfold deref. rewrite N. cbn. eauto. }
    rewrite E. cbn [bind]. apply mapR_F2 in E.
    assert (F : Forall2 (fun c e => entry_at h c e) rs es).
    { eapply F2_impl; [|exact E]. intros c e Q. cbv beta in Q. unfold deref in Q. destruct (nth_error h c) as [n|] eqn:N; [|discriminate].
      cbn in Q. apply Ok_inj in Q. exists n. auto. }
    assert (DA : forall c e, entry_at h c e -> dn_at h c = e_dn e).
    { intros c e (n & N & <-). unfold dn_at. now rewrite N. }
    assert (OK : Forall (ldif_entry_ok lower) es).
    { apply Forall_forall. intros e I. destruct (F2_In_r _ _ _ _ F I) as (c & Ic & A). apply (EO c); [now apply IL|exact A]. }
    destruct (entries_roundtrip lower io vio oc LOC es OK) as (ws & es' & Ws & SE & RT). rewrite Ws. cbn [bind].
    exists (ldif_header ++ concat ws). split; [reflexivity|]. intros SH. destruct (RT (short_concat _ _ SH)) as (_ & P).
    destruct (parse_text lower io vio oc depth _ es' P) as (-> & Oc).
    assert (IO : in_order lower es).
    { intros before e after -> NE. apply Forall2_app_inv_r in F as (cb & x & Fb & Fx & ->). inversion Fx as [|c ? ca ? Ae Fa]; subst.
      destruct (AP cb c ca eq_refl) as (p & Ip & K). { intros ->. inversion Fb; congruence. }
      assert (Lp : In p L) by (apply IL, in_or_app; now left). assert (Lc : In c L) by (apply IL, in_or_app; right; now left).
      destruct (F2_In_l _ _ _ _ Fb Ip) as (ep & Iep & Ap). split.
      - destruct Ae as (n & N & <-), Ap as (m & M & <-). destruct (t_dn h L T p c m n Lp K M N) as (rd & Ed). exists rd, (n_dn m). split; [exact Ed|].
        exists (n_entry m). split; [exact Iep|apply same_refl].
      - intros (e2 & I2 & S2). destruct (F2_In_r _ _ _ _ Fb I2) as (c2 & Ic2 & A2).
        assert (c2 = c) as ->. { apply U; [apply IL, in_or_app; now left|exact Lc|]. rewrite (DA _ _ A2), (DA _ _ Ae). exact S2. }
        apply NoDup_remove_2 in ND. apply ND. apply in_or_app. now left. }
    assert (FD : Forall2 (fun e e' => e_dn e' = e_dn e) es es') by (eapply F2_impl; [|exact SE]; intros ? ? (X & _); exact X).
    destruct R0 as (rs' & ->).
    destruct (load_ok lower oc C CC depth es' Oc) as (h' & L' & LO & T' & (HE1 & HE2)).
    { split.
      - intros e' I. destruct (F2_In_r _ _ _ _ FD I) as (e & Ie & ->). destruct (F2_In_r _ _ _ _ F Ie) as (c & Ic & A). rewrite <- (DA _ _ A). apply D. now apply IL.
      - intros e' rd p I Ed. inversion F as [|? e0 ? esr A0 Fr]; subst. inversion FD as [|? e0' ? esr' E0 FDr]; subst. cbn [tl] in I.
        destruct (F2_In_r _ _ _ _ FDr I) as (e & Ie & Ee). destruct (F2_In_r _ _ _ _ Fr Ie) as (c & Ic & A). apply (Crd c rd p).
        + apply IL. now right.
        + intros ->. inversion ND; congruence.
        + rewrite (DA _ _ A). congruence. }
    { intros ->. inversion FD; subst. inversion F. }
    { exact (order_dns es es' FD IO). }
    exists h', L'. split; [exact LO|]. split; [exact T'|]. split.
    - intros c e Ic A. assert (I1 : In c (0%nat :: rs')) by now apply IL. destruct (F2_In_l _ _ _ _ F I1) as (e1 & Ie & A1).
      assert (e1 = e) as ->. { destruct A as (n & N & <-), A1 as (m & M & <-). congruence. }
      destruct (F2_In_l _ _ _ _ SE Ie) as (e' & Ie' & (Ed & Says)). destruct (HE1 e' Ie') as (r & e2 & LK & A2 & S2 & SA). rewrite Ed in LK, S2.
      exists r, e2. split; [exact LK|]. split; [exact A2|]. split; [exact S2|]. intros k v. rewrite <- Says. apply (same_attrs_says lower); [|exact SA].
      rewrite Forall_forall in Oc. destruct (Oc e' Ie') as (X & _). intros a Ia. destruct (X a Ia) as (Y & _ & Z0). auto.
    - intros d Dd NM. apply HE2; [exact Dd|]. intros (e' & I' & S'). destruct (F2_In_r _ _ _ _ FD I') as (e & Ie & Ee).
      destruct (F2_In_r _ _ _ _ F Ie) as (c & Ic & A). apply (NM c); [now apply IL|]. rewrite (DA _ _ A), <- Ee. exact S'.
  Qed.
End Dump.
