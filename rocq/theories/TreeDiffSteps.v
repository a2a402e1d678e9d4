(** One operation of a tree difference, applied to a tree. *)
From Verif Require Import Base BaseFacts Utf8Model DnModel DnSpec DnProofs EntryModel EntrySpec LdapSpec MatchModel InmemModel InmemSpec InmemProofs InmemHist ServerModel TreeDiffModel.

Definition ent_at (h : heap) (r : ref) : entry := match nth_error h r with Some n => n_entry n | None => mkEntry [] [] end.
Lemma dn_at_ent h r : e_dn (ent_at h r) = dn_at h r.
Proof. unfold ent_at, dn_at, n_dn. now destruct (nth_error h r). Qed.
Definition ents (h : heap) (L : list ref) (e : entry) : Prop := exists r, In r L /\ ent_at h r = e.

Section Steps.
  Variable lower : str -> str.
  Variable oc_first : bool.
  Variable depth : nat.
  Variable C : rdn -> Prop.
  Hypothesis CC : consistent lower C.
  Variable rt : dn.
  Notation same := (same_dn lower).
  Notation intree := (in_tree lower).
  Notation inv := (inv C rt).
  Notation patch_op := (patch_op lower oc_first depth 0%nat).

  Lemma set_entry_inv h L r n e : inv h L -> In r L -> nth_error h r = Some n -> e_dn e = n_dn n ->
    inv (set_nth r (set_entry n e) h) L.
  Proof.
    intros I Ir N D. pose proof (i_tree C rt h L I) as T. set (n1 := set_entry n e). set (h' := set_nth r n1 h).
    assert (No : forall q, nth_error h' q = if Nat.eqb r q then Some n1 else nth_error h q).
    { intros q. unfold h'. rewrite nth_set_nth. destruct (Nat.eqb r q); [now rewrite N|reflexivity]. }
    assert (Nd : forall q m, nth_error h q = Some m -> exists m', nth_error h' q = Some m' /\ n_dn m' = n_dn m /\ n_parent m' = n_parent m /\ n_children m' = n_children m).
    { intros q m M. rewrite (No q). destruct (Nat.eqb_spec r q) as [<-|Q]; [|exists m; auto]. rewrite N in M. injection M as <-. exists n1. auto. }
    assert (Nb : forall q m', nth_error h' q = Some m' -> exists m, nth_error h q = Some m /\ n_dn m' = n_dn m /\ n_parent m' = n_parent m /\ n_children m' = n_children m).
    { intros q m'. rewrite (No q). destruct (Nat.eqb_spec r q) as [<-|Q]; [|intros M; exists m'; auto]. intros [= <-]. exists n. auto. }
    assert (K : forall q, kids h' q = kids h q).
    { intros q. unfold kids. rewrite (No q). destruct (Nat.eqb_spec r q) as [<-|Q]; [|reflexivity]. now rewrite N. }
    constructor.
    - constructor.
      + apply (t_nodup h L T).
      + apply (t_root h L T).
      + intros q Iq. destruct (t_node h L T q Iq) as (m & M). destruct (Nd q m M) as (m' & M' & _). eauto.
      + intros q c Iq. rewrite K. now apply (t_kids h L T).
      + intros q c m m' Iq Kc M M'. rewrite K in Kc. destruct (Nb q m M) as (m0 & M0 & D0 & _), (Nb c m' M') as (m1 & M1 & D1 & _).
        rewrite D0, D1. exact (t_dn h L T q c m0 m1 Iq Kc M0 M1).
      + intros q Iq. rewrite K. now apply (t_nodup_kids h L T).
      + intros a b c. rewrite !K. apply (t_one h L T).
      + intros c Ic Nc. destruct (t_up h L T c Ic Nc) as (q & Iq & Kq). exists q. now rewrite K.
    - intros q m' Iq M'. destruct (Nb q m' M') as (m & M & _ & _ & Ch). rewrite Ch. destruct (i_keys C rt h L I q m Iq M) as (F & ND). split; [|exact ND].
      rewrite Forall_forall in *. intros x J. destruct (F x J) as (y & rd & rest & Y & E1 & E2 & E3 & E4). destruct (Nd _ y Y) as (y' & Y' & D1 & P1 & _).
      exists y', rd, rest. rewrite D1, P1. auto.
    - destruct (i_root C rt h L I) as (m & M & P & D0). destruct (Nd _ m M) as (m' & M' & D1 & P1 & _). exists m'. rewrite D1, P1. auto.
  Qed.


  Section One.
    Variables (h : heap) (L : list ref).
    Hypothesis I : inv h L.
    Let T := i_tree C rt h L I.
    Lemma ent_node r : In r L -> exists n, nth_error h r = Some n /\ n_entry n = ent_at h r.
    Proof. intros Ir. destruct (t_node h L T r Ir) as (n & N). exists n. unfold ent_at. rewrite N. auto. Qed.
    Lemma ents_unique e f : ents h L e -> ents h L f -> same (e_dn e) (e_dn f) -> e = f.
    Proof.
      intros (r & Ir & <-) (q & Iq & <-) S. rewrite !dn_at_ent in S. f_equal. exact (unique lower C CC rt h L I r q Ir Iq S).
    Qed.
    Lemma root_len e : ents h L e -> (length rt <= length (e_dn e))%nat.
    Proof.
      intros (r & Ir & <-). rewrite dn_at_ent. destruct (i_root C rt h L I) as (n0 & N0 & _ & D0).
      assert (E : dn_at h 0%nat = rt) by (unfold dn_at; now rewrite N0). rewrite <- E.
      eapply intree_len. exact (root_intree lower h L T r Ir).
    Qed.

    Lemma mod_step d ms e e' : ents h L e -> same (e_dn e) d -> (length d < depth)%nat ->
      patch_all lower ms e = (e', Ok tt) -> e_dn e' = e_dn e ->
      exists h', patch_op (TModify d ms) h = (h', Ok tt) /\ inv h' L /\
        forall x, ents h' L x <-> (ents h L x /\ ~ same (e_dn x) d) \/ x = e'.
    Proof.
      intros (r & Ir & Er) S Dd P De. destruct (ent_node r Ir) as (n & N & En).
      assert (Sr : same (dn_at h r) d) by (rewrite <- dn_at_ent, Er; exact S).
      assert (LK : lookup lower depth h 0%nat d = Ok r) by (apply (lookup_root lower C CC rt h L I depth d Dd); assumption).
      cbn [TreeDiffModel.patch_op]. rewrite LK. cbn [bind]. unfold deref. rewrite N. cbn [bind]. rewrite En, Er, P.
      eexists. split; [reflexivity|]. split; [apply set_entry_inv; auto; unfold n_dn; now rewrite De, En, Er|].
      intros x. set (h' := set_nth r (set_entry n e') h).
      assert (EA : forall q, ent_at h' q = if Nat.eqb r q then e' else ent_at h q).
      { intros q. unfold ent_at, h'. rewrite nth_set_nth. destruct (Nat.eqb_spec r q) as [<-|Q]; [now rewrite N|reflexivity]. }
      split.
      - intros (q & Iq & Eq). rewrite EA in Eq. destruct (Nat.eqb_spec r q) as [<-|Q]; [right; congruence|]. left.
        split; [exists q; auto|]. intros Sx. apply Q. symmetry. apply (unique lower C CC rt h L I q r Iq Ir).
        rewrite <- dn_at_ent, Eq. eapply same_trans; [exact Sx|]. now apply same_sym.
      - intros [((q & Iq & Eq) & NS)| ->].
        + exists q. split; [exact Iq|]. rewrite EA. destruct (Nat.eqb_spec r q) as [<-|Q]; [|exact Eq]. exfalso. apply NS. now rewrite <- Eq, Er.
        + exists r. split; [exact Ir|]. rewrite EA, Nat.eqb_refl. reflexivity.
    Qed.

    Lemma add_step rd D e pe its : e_dn e = rd :: D -> C rd -> ents h L pe -> same (e_dn pe) D -> (length D < depth)%nat ->
      items lower oc_first e = Ok its -> (forall x, ents h L x -> ~ same (e_dn x) (rd :: D)) ->
      exists h' L', patch_op (TAdd e) h = (h', Ok tt) /\ inv h' L' /\
        forall x, ents h' L' x <-> ents h L x \/ x = new_entry lower (rd :: e_dn pe) its.
    Proof.
      intros De Crd (p & Ip & Ep) S Dd Its NEW. destruct (ent_node p Ip) as (n & N & En).
      assert (Sp : same (dn_at h p) D) by (rewrite <- dn_at_ent, Ep; exact S).
      assert (LK : lookup lower depth h 0%nat D = Ok p) by (apply (lookup_root lower C CC rt h L I depth D Dd); assumption).
      cbn [TreeDiffModel.patch_op]. rewrite De. unfold dn_up. cbn [tl]. rewrite LK. cbn [bind]. rewrite Its. cbn [bind].
      destruct (add_child lower h p rd its) as [(h' & c)|x] eqn:AC.
      - destruct (add_child_inv lower C rt h L p rd its h' c I Ip Crd AC) as (Ec & I' & KP & m & Nm & Em).
        exists h', (L ++ [c]). split; [reflexivity|]. split; [exact I'|].
        assert (EO : forall q, In q L -> ent_at h' q = ent_at h q).
        { intros q Iq. destruct (t_node h L T q Iq) as (y & Y). destruct (KP q y Iq Y) as (y' & Y' & E). unfold ent_at. now rewrite Y, Y', E. }
        assert (EN : ent_at h' c = new_entry lower (rd :: e_dn pe) its).
        { unfold ent_at. rewrite Nm, Em. f_equal. f_equal. rewrite <- Ep. symmetry. apply dn_at_ent. }
        intros x. split.
        + intros (q & Iq & Eq). apply in_app_iff in Iq as [Iq|[<-|[]]]; [left; exists q; rewrite <- EO; auto|right; congruence].
        + intros [(q & Iq & Eq)| ->]; [exists q; split; [apply in_or_app; auto|rewrite EO; auto]|]. exists c. split; [apply in_or_app; right; now left|exact EN].
      - exfalso. unfold add_child, deref in AC. rewrite N in AC. cbn [bind] in AC. destruct (key_get (rdn_text rd) (n_children n)) as [c|] eqn:G; [|discriminate].
        apply key_get_some in G. assert (K : In c (kids h p)) by (unfold kids; rewrite N; change c with (snd (rdn_text rd, c)); now apply in_map).
        destruct (i_keys C rt h L I p n Ip N) as (FC & _). rewrite Forall_forall in FC. apply FC in G.
        destruct G as (m & rd' & rest & Nm & Em & Ek & Cr & _). cbn [fst snd] in *.
        destruct (dn_at_kid C rt h L I p c Ip K) as (rc & Ec & Cc & _).
        assert (E2 : dn_at h c = rd' :: rest) by (unfold dn_at; now rewrite Nm). rewrite Ec in E2. injection E2 as <- _.
        apply (NEW (ent_at h c)); [exists c; split; [exact (t_kids h L T p c Ip K)|reflexivity]|]. rewrite dn_at_ent, Ec. apply same_cons.
        split; [|exact Sp]. apply (CC rc rd Cc Crd). auto.
    Qed.

    Lemma del_step d e : ents h L e -> same (e_dn e) d -> ~ same rt d -> (length d < depth)%nat ->
      (forall x, ents h L x -> intree d (e_dn x) -> same (e_dn x) d) ->
      exists h' L', patch_op (TDelete d) h = (h', Ok tt) /\ inv h' L' /\
        forall x, ents h' L' x <-> ents h L x /\ ~ same (e_dn x) d.
    Proof.
      intros (c & Ic & Ec) S NR Dd LEAF. destruct (ent_node c Ic) as (n & N & En).
      assert (Sc : same (dn_at h c) d) by (rewrite <- dn_at_ent, Ec; exact S).
      assert (LK : lookup lower depth h 0%nat d = Ok c) by (apply (lookup_root lower C CC rt h L I depth d Dd); assumption).
      cbn [TreeDiffModel.patch_op]. rewrite LK. cbn [bind]. unfold delete, deref at 1. rewrite N. cbn [bind].
      destruct (i_root C rt h L I) as (n0 & N0 & P0 & D0).
      assert (Nc : c <> 0%nat) by (intros ->; apply NR; rewrite <- D0; replace (n_dn n0) with (dn_at h 0%nat) by (unfold dn_at; now rewrite N0); exact Sc).
      destruct (t_up h L T c Ic Nc) as (p & Ip & Kp). destruct (t_node h L T p Ip) as (np & Np).
      assert (PC : n_parent n = Some p).
      { destruct (i_keys C rt h L I p np Ip Np) as (FC & _). rewrite Forall_forall in FC. unfold kids in Kp. rewrite Np in Kp.
        apply in_map_iff in Kp as (y & <- & Jy). destruct (FC y Jy) as (m & ? & ? & Nm & _ & _ & _ & P). congruence. }
      rewrite PC.
      assert (CS : n_children n = []).
      { destruct (n_children n) as [|(k & y) cs] eqn:Q; [reflexivity|]. exfalso.
        assert (K : In y (kids h c)) by (unfold kids; rewrite N, Q; now left). pose proof (t_kids h L T c y Ic K) as Iy.
        destruct (dn_at_kid C rt h L I c y Ic K) as (ry & Ey & _).
        assert (X : same (e_dn (ent_at h y)) d).
        { apply LEAF; [exists y; auto|]. rewrite dn_at_ent, Ey. eapply intree_trans; [apply intree_same, same_sym, Sc|apply intree_cons]. }
        rewrite dn_at_ent, Ey in X. apply same_len in X. apply same_len in Sc. cbn [length] in X. lia. }
      rewrite CS. destruct (dn_at_kid C rt h L I p c Ip Kp) as (rc & Erc & Cc & np' & Np' & Jc). rewrite Np in Np'. injection Np' as <-.
      assert (Edn : n_dn n = rc :: dn_at h p) by (rewrite <- Erc; unfold dn_at; now rewrite N). rewrite Edn.
      destruct (delete_child_inv C rt h L p np rc c I Ip Np Jc) as (h' & E & I' & KP); [unfold kids; now rewrite N, CS|]. rewrite E.
      exists h', (List.filter (fun r => negb (Nat.eqb r c)) L). split; [reflexivity|]. split; [exact I'|].
      assert (EO : forall q, In q L -> ent_at h' q = ent_at h q).
      { intros q Iq. destruct (t_node h L T q Iq) as (y & Y). destruct (KP q y Iq Y) as (y' & Y' & E1). unfold ent_at. now rewrite Y, Y', E1. }
      intros x. split.
      - intros (q & Iq & Eq). apply filter_In in Iq as (Iq & Q). rewrite (EO q Iq) in Eq. split; [exists q; auto|]. intros Sx.
        assert (q = c); [|subst; rewrite Nat.eqb_refl in Q; discriminate]. apply (unique lower C CC rt h L I q c Iq Ic).
        rewrite <- dn_at_ent, Eq. eapply same_trans; [exact Sx|now apply same_sym].
      - intros ((q & Iq & Eq) & NS). exists q. split; [|rewrite EO; auto]. apply filter_In. split; [exact Iq|].
        destruct (Nat.eqb_spec q c) as [->|Q]; [exfalso; apply NS; now rewrite <- Eq, Ec|reflexivity].
    Qed.
  End One.
End Steps.
