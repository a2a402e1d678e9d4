(** Proofs for the DHCP configuration: the group of a host, and the network of an address. *)
From Verif Require Import Base BaseFacts Utf8Model Utf8Proofs DnModel DnSpec EntryModel EntryProofs FilterTextModel LdifTreeModel UtilModel DhcpModel DhcpSpec DhcpProofs.
From Coq Require Import Permutation.

Section Groups.
  Variable lower : str -> str.
  Variable hs : list host.
  Hypothesis IDS : NoDup (map h_id hs).
  Notation table := (map (fun h => (h_dn h, h)) hs).

  Lemma dn_table_spec : forall l t r, dn_table l t = Ok r <-> NoDup (map h_dn l) /\ (forall h, In h l -> ~ In (h_dn h) (map fst t)) /\ r = t ++ map (fun h => (h_dn h, h)) l.
  Proof.
    induction l as [|h l IH]; intros t r; cbn [dn_table map].
    - rewrite app_nil_r. split; [intros [= <-]; repeat split; [constructor|contradiction]|]. intros (_ & _ & ->). reflexivity.
    - assert (X : existsb (fun p => str_eqb (fst p) (h_dn h)) t = true <-> In (h_dn h) (map fst t)).
      { rewrite existsb_exists, in_map_iff. split; intros (p & P & Q); exists p.
        - apply str_eqb_eq in Q. tauto.
        - split; [tauto|]. now apply str_eqb_eq. }
      destruct (existsb _ t).
      + split; [discriminate|]. intros (_ & H & _). exfalso. apply (H h); [now left|]. now apply X.
      + assert (NX : ~ In (h_dn h) (map fst t)) by (rewrite <- X; discriminate). rewrite IH, map_app. cbn [map fst]. split.
        * intros (N & D & ->). split; [|split].
          -- constructor; [|exact N]. intros H. apply in_map_iff in H. destruct H as (h' & E & H). apply (D h' H). rewrite in_app_iff, E. right. now left.
          -- intros h' [<-|H]; [exact NX|]. intros K. apply (D h' H). rewrite in_app_iff. now left.
          -- now rewrite <- app_assoc.
        * intros (N & D & ->). inversion N as [|? ? N1 N2]; subst. split; [exact N2|]. split.
          -- intros h' H. rewrite in_app_iff. intros [K|[K|[]]]; [exact (D h' (or_intror H) K)|]. apply N1. rewrite K. now apply in_map.
          -- now rewrite <- app_assoc.
  Qed.
  Hypothesis DNS : NoDup (map h_dn hs).
  Lemma lookup_some m h : dn_lookup table m = Some h <-> In h hs /\ m = PStr (h_dn h).
  Proof.
    destruct m as [s|b]; cbn [dn_lookup]; [|split; [discriminate|intros (_ & E); discriminate]]. split.
    - destruct (find _ table) as [p|] eqn:F; [|discriminate]. intros [= <-]. apply find_some in F. destruct F as (F & E). apply in_map_iff in F. destruct F as (h' & <- & H). cbn [fst snd] in *.
      apply str_eqb_eq in E. now subst.
    - intros (H & [= ->]). destruct (find (fun p => str_eqb (fst p) (h_dn h)) table) as [p|] eqn:F.
      + apply find_some in F. destruct F as (F & E). apply in_map_iff in F. destruct F as (h' & <- & H'). cbn [fst snd] in *. apply str_eqb_eq in E. f_equal. eapply (map_inj h_dn hs); eauto.
      + exfalso. assert (K : In (h_dn h, h) table) by (apply in_map_iff; eauto). pose proof (find_none _ _ F _ K) as G. cbn [fst] in G. now rewrite str_eqb_refl in G.
  Qed.

  Definition GI (gs : list (group * list pyval)) (st : grouped) : Prop :=
    (forall h, In h hs -> group_of st h = group_for gs h) /\
    (forall k h, In (k, h) (gr_in st) <-> In h hs /\ exists g, group_for gs h = Some g /\ g_id g = k) /\
    NoDup (map (fun p => h_id (snd p)) (gr_in st)).
  Lemma group_for_snoc gs g l h : group_for (gs ++ [(g, l)]) h =
    match group_for gs h with Some g0 => Some g0 | None => if mem (PStr (h_dn h)) l then Some g else None end.
  Proof.
    unfold group_for. induction gs as [|x gs IH]; cbn [app find snd].
    - destruct (mem _ l); reflexivity.
    - destruct (mem _ (snd x)); [reflexivity|exact IH].
  Qed.
  Lemma group_for_app gs xs h : group_for (gs ++ xs) h = match group_for gs h with Some g0 => Some g0 | None => group_for xs h end.
  Proof.
    unfold group_for. induction gs as [|x gs IH]; cbn [app find]; [reflexivity|]. destruct (mem _ (snd x)); [reflexivity|exact IH].
  Qed.
  Lemma mem_snoc x l m : mem x (l ++ [m]) = mem x l || pyval_eqb x m.
  Proof. unfold mem. rewrite existsb_app. cbn [existsb]. now rewrite orb_false_r. Qed.
  Lemma group_of_app st h g0 h' : group_of (mkGrouped (gr_of st ++ [(h_id h, g0)]) (gr_in st ++ [(g_id g0, h)])) h' =
    match group_of st h' with Some g => Some g | None => if Nat.eqb (h_id h) (h_id h') then Some g0 else None end.
  Proof.
    unfold group_of. cbn [gr_of]. induction (gr_of st) as [|p l IH]; cbn [app find fst snd].
    - destruct (Nat.eqb _ _); reflexivity.
    - destruct (Nat.eqb (fst p) (h_id h')); [reflexivity|exact IH].
  Qed.
  Lemma GI_same gs gs' st : (forall h, In h hs -> group_for gs h = group_for gs' h) -> GI gs st -> GI gs' st.
  Proof.
    intros E (A & B & C). split; [|split; [|exact C]].
    - intros h H. rewrite <- E by exact H. now apply A.
    - intros k h. rewrite B. split; intros (H & g & G & K); (split; [exact H|]); exists g; (split; [|exact K]); [rewrite <- E|rewrite E]; auto.
  Qed.
  Lemma add_members_spec g gs : forall ms seen st, GI (gs ++ [(g, seen)]) st ->
    let '(st', ns) := add_members table g ms st in
    GI (gs ++ [(g, seen ++ ms)]) st' /\
    (forall x, In x ns -> exists h, x = DTwo h g /\ In h hs /\ In (PStr (h_dn h)) ms) /\
    (forall h g', In h hs -> In (PStr (h_dn h)) ms -> group_for gs h = Some g' -> In (DTwo h g) ns).
  Proof.
    induction ms as [|m ms IH]; intros seen st I; cbn [add_members].
    - rewrite app_nil_r. split; [exact I|]. split; [intros x []|intros h g' _ []].
    - assert (R : seen ++ m :: ms = (seen ++ [m]) ++ ms) by now rewrite <- app_assoc. rewrite R. clear R. destruct (dn_lookup table m) as [h|] eqn:L.
      + apply lookup_some in L. destruct L as (H & ->). unfold group_add. destruct (group_of st h) as [g0|] eqn:G.
        * assert (I' : GI (gs ++ [(g, seen ++ [PStr (h_dn h)])]) st).
          { apply (GI_same (gs ++ [(g, seen)])); [|exact I]. intros h' H'. rewrite !group_for_snoc. destruct (group_for gs h') eqn:F; [reflexivity|]. rewrite mem_snoc.
            destruct (mem (PStr (h_dn h')) seen) eqn:M; [reflexivity|]. destruct (pyval_eqb _ _) eqn:E; [|reflexivity]. apply pyval_eqb_eq in E. injection E as E.
            assert (h' = h) by (eapply (map_inj h_dn hs); eauto). subst h'. destruct I as (A & _). rewrite (A h H), group_for_snoc, F, M in G. discriminate. }
          specialize (IH _ _ I'). destruct (add_members table g ms st) as [st' ns']. destruct IH as (J & N1 & N2). split; [exact J|]. split.
          -- intros x [<-|X]; [exists h; repeat split; auto; now left|]. destruct (N1 x X) as (h' & ? & ? & ?). exists h'. repeat split; auto. now right.
          -- intros h' g' H' [E|M] G'; [|right; eapply N2; eauto]. injection E as E. assert (h' = h) by (eapply (map_inj h_dn hs); eauto). subst. now left.
        * assert (I' : GI (gs ++ [(g, seen ++ [PStr (h_dn h)])]) (mkGrouped (gr_of st ++ [(h_id h, g)]) (gr_in st ++ [(g_id g, h)]))).
          { destruct I as (A & B & C). pose proof (A h H) as AH. rewrite G, group_for_snoc in AH. destruct (group_for gs h) eqn:F; [discriminate|]. destruct (mem (PStr (h_dn h)) seen) eqn:M; [discriminate|].
            assert (NEW : forall h', In h' hs -> group_for (gs ++ [(g, seen ++ [PStr (h_dn h)])]) h' = match group_for (gs ++ [(g, seen)]) h' with Some g0 => Some g0 | None => if Nat.eqb (h_id h) (h_id h') then Some g else None end).
            { intros h' H'. rewrite !group_for_snoc. destruct (group_for gs h') eqn:F'; [reflexivity|]. rewrite mem_snoc. destruct (mem (PStr (h_dn h')) seen); [reflexivity|]. cbn [orb].
              destruct (pyval_eqb (PStr (h_dn h')) (PStr (h_dn h))) eqn:E.
              - apply pyval_eqb_eq in E. injection E as E. assert (h' = h) by (eapply (map_inj h_dn hs); eauto). subst. now rewrite Nat.eqb_refl.
              - destruct (Nat.eqb _ _) eqn:E2; [|reflexivity]. apply Nat.eqb_eq in E2. assert (h = h') by (eapply (map_inj h_id hs); eauto). subst. now rewrite pyval_refl in E. }
            split; [|split].
            - intros h' H'. rewrite group_of_app, NEW by exact H'. now rewrite (A h' H').
            - intros k h'. cbn [gr_in]. rewrite in_app_iff, B. cbn [In]. split.
              + intros [(H' & g1 & G1 & K)|[[= <- <-]|[]]].
                * split; [exact H'|]. exists g1. split; [|exact K]. now rewrite NEW, G1.
                * split; [exact H|]. exists g. split; [|reflexivity]. rewrite NEW by exact H. rewrite group_for_snoc, F, M. now rewrite Nat.eqb_refl.
              + intros (H' & g1 & G1 & K). rewrite NEW in G1 by exact H'. destruct (group_for (gs ++ [(g, seen)]) h') eqn:Q.
                * injection G1 as ->. left. split; [exact H'|]. exists g1. split; [first [exact Q|reflexivity]|exact K].
                * destruct (Nat.eqb _ _) eqn:E2; [|discriminate]. injection G1 as ->. apply Nat.eqb_eq in E2. assert (h = h') by (eapply (map_inj h_id hs); eauto). subst. right. now left.
            - cbn [gr_in]. rewrite map_app. cbn [map snd].
              eapply Permutation_NoDup; [apply Permutation_app_comm|]. cbn [app]. constructor; [|exact C]. intros K. apply in_map_iff in K. destruct K as ((k, h') & E & K). cbn [snd] in E.
              apply B in K. destruct K as (H' & g1 & G1 & _). assert (h' = h) by (eapply (map_inj h_id hs); eauto). subst. rewrite group_for_snoc, F, M in G1. discriminate. }
          specialize (IH _ _ I'). destruct (add_members table g ms _) as [st' ns']. destruct IH as (J & N1 & N2). split; [exact J|]. split.
          -- intros x X. destruct (N1 x X) as (h' & ? & ? & ?). exists h'. repeat split; auto. now right.
          -- intros h' g' H' [E|M] G'; [|eapply N2; eauto]. injection E as E. assert (h' = h) by (eapply (map_inj h_dn hs); eauto). subst. exfalso.
             destruct I as (A & _). rewrite (A h H), group_for_snoc, G' in G. discriminate.
      + assert (NM : forall h, In h hs -> m <> PStr (h_dn h)).
        { intros h H E. assert (K : dn_lookup table m = Some h) by (apply lookup_some; auto). congruence. }
        assert (I' : GI (gs ++ [(g, seen ++ [m])]) st).
        { apply (GI_same (gs ++ [(g, seen)])); [|exact I]. intros h' H'. rewrite !group_for_snoc, mem_snoc. destruct (pyval_eqb (PStr (h_dn h')) m) eqn:E; [|now rewrite orb_false_r].
          apply pyval_eqb_eq in E. now destruct (NM h' H'). }
        specialize (IH _ _ I'). destruct (add_members table g ms st) as [st' ns']. destruct IH as (J & N1 & N2). split; [exact J|]. split.
        * intros x X. destruct (N1 x X) as (h' & ? & ? & ?). exists h'. repeat split; auto. now right.
        * intros h' g' H' [E|M] G'; [now destruct (NM h' H')|eapply N2; eauto].
  Qed.
  Lemma add_groups_spec : forall es k gs st, GI gs st ->
    (forall ns st', add_groups lower table k es st = (ns, Ok st') -> exists xs, reads (group_entry lower) k es xs /\ GI (gs ++ xs) st' /\
       (forall x, In x ns -> exists h g ms, x = DTwo h g /\ In h hs /\ In (g, ms) xs /\ In (PStr (h_dn h)) ms) /\
       (forall l1 g ms l2 h g', xs = l1 ++ (g, ms) :: l2 -> In h hs -> In (PStr (h_dn h)) ms -> group_for (gs ++ l1) h = Some g' -> In (DTwo h g) ns)) /\
    (forall xs, reads (group_entry lower) k es xs -> exists ns st', add_groups lower table k es st = (ns, Ok st')).
  Proof.
    induction es as [|e es IH]; intros k gs st I; cbn [add_groups].
    - split.
      + intros ns st' [= <- <-]. exists []. rewrite app_nil_r. split; [constructor|]. split; [exact I|]. split; [contradiction|]. intros [|]; discriminate.
      + intros xs _. eauto.
    - assert (G0 : forall g, GI (gs ++ [(g, [])]) st).
      { intros g. apply (GI_same gs); [|exact I]. intros h _. rewrite group_for_snoc. cbn. now destruct (group_for gs h). }
      split.
      + intros ns st' H. destruct (only lower e (S_ "bootFile")) as [b|] eqn:B; [|discriminate]. destruct (get_values lower (PStr (S_ "member")) e) as [ms|] eqn:M; [|discriminate].
        set (g := mkGroup k (dn_text (e_dn e)) b) in *. pose proof (add_members_spec g gs ms [] st (G0 g)) as AM. destruct (add_members table g ms st) as [st1 ns1]. destruct AM as (J & N1 & N2).
        destruct (IH (S k) (gs ++ [(g, ms)]) st1 J) as (F & _). destruct (add_groups lower table (S k) es st1) as [ns2 x]. injection H as <- ->. destruct (F ns2 st' eq_refl) as (xs & R & K & M1 & M2).
        exists ((g, ms) :: xs). split; [|split; [|split]].
        * constructor; [|exact R]. unfold group_entry, g. cbn [fst snd g_id g_dn g_boot]. apply only_spec in B. apply get_values_spec in M. tauto.
        * now rewrite <- app_assoc in K.
        * intros x X. apply in_app_iff in X. destruct X as [X|X].
          -- destruct (N1 x X) as (h & ? & ? & ?). exists h, g, ms. repeat split; auto. now left.
          -- destruct (M1 x X) as (h & g' & ms' & ? & ? & ? & ?). exists h, g', ms'. repeat split; auto. now right.
        * intros l1 g1 ms1 l2 h g' E H L G. apply in_app_iff. destruct l1 as [|y l1].
          -- left. injection E as <- <- <-. rewrite app_nil_r in G. eapply N2; eauto.
          -- right. injection E as <- E. eapply M2; eauto. rewrite <- app_assoc. exact G.
      + intros xs R. inversion R as [|? ? ? x xs' X XS]; subst. destruct x as [g ms]. destruct X as (_ & _ & X3 & X4). cbn [fst snd] in *.
        apply only_spec in X3. apply get_values_spec in X4. rewrite X3, X4. set (g' := mkGroup k (dn_text (e_dn e)) (g_boot g)).
        pose proof (add_members_spec g' gs ms [] st (G0 g')) as AM. destruct (add_members table g' ms st) as [st1 ns1]. destruct AM as (J & _).
        destruct (IH (S k) _ st1 J) as (_ & F). destruct (F xs' XS) as (ns2 & st2 & ->). eauto.
  Qed.
  Lemma get_groups_spec es ns st : get_groups lower es hs = (ns, Ok st) -> exists gs, reads (group_entry lower) 0 es gs /\ GI gs st /\
    (forall x, In x ns -> exists h g ms, x = DTwo h g /\ In h hs /\ In (g, ms) gs /\ In (PStr (h_dn h)) ms) /\
    (forall h g g' ms, In h hs -> In (g, ms) gs -> In (PStr (h_dn h)) ms -> group_for gs h = Some g' -> g' <> g -> In (DTwo h g) ns).
  Proof.
    unfold get_groups. rewrite (proj2 (dn_table_spec hs [] table)) by (repeat split; auto). intros H.
    destruct (add_groups_spec es 0%nat [] (mkGrouped [] [])) as (F & _).
    - split; [|split; [|constructor]].
      + reflexivity.
      + intros k h. cbn. split; [contradiction|]. intros (_ & g & E & _). discriminate.
    - destruct (F ns st H) as (gs & R & J & N1 & N2). exists gs. split; [exact R|]. split; [exact J|]. split; [exact N1|]. intros h g g' ms Hh Hg L G D.
      destruct (in_split _ _ Hg) as (l1 & l2 & ->). eapply (N2 l1 g ms l2 h g'); auto. cbn [app]. change (l1 ++ (g, ms) :: l2) with (l1 ++ [(g, ms)] ++ l2) in G. rewrite !group_for_app in G. destruct (group_for l1 h); [exact G|].
      unfold group_for in G at 1. cbn [find snd] in G. rewrite (proj2 (mem_In _ _) L) in G. injection G as <-. now destruct D.
  Qed.
  Lemma get_groups_runs es gs : reads (group_entry lower) 0 es gs -> exists ns st, get_groups lower es hs = (ns, Ok st).
  Proof.
    unfold get_groups. rewrite (proj2 (dn_table_spec hs [] table)) by (repeat split; auto). intros R.
    destruct (add_groups_spec es 0%nat [] (mkGrouped [] [])) as (_ & F).
    - split; [|split; [|constructor]].
      + reflexivity.
      + intros k h. cbn. split; [contradiction|]. intros (_ & g & E & _). discriminate.
    - exact (F gs R).
  Qed.
  (** The hosts of a group *)
  Lemma hosts_in_spec gs st g h : GI gs st -> (forall h' g', In h' hs -> group_for gs h' = Some g' -> g_id g' = g_id g -> g' = g) ->
    (In h (hosts_in st g) <-> In h hs /\ group_for gs h = Some g).
  Proof.
    intros (_ & B & _) U. unfold hosts_in. rewrite in_map_iff. split.
    - intros ((k, h') & E & H). cbn [snd] in E. subst h'. apply filter_In in H. destruct H as (H & K). cbn [fst] in K. apply Nat.eqb_eq in K. apply B in H. destruct H as (H & g' & G & K'). split; [exact H|].
      rewrite G. f_equal. eapply U; eauto. congruence.
    - intros (H & G). exists (g_id g, h). split; [reflexivity|]. apply filter_In. split; [|cbn [fst]; apply Nat.eqb_refl]. apply B. split; [exact H|]. eauto.
  Qed.
  Lemma hosts_in_nodup gs st g : GI gs st -> NoDup (hosts_in st g).
  Proof.
    intros (_ & _ & C). unfold hosts_in. apply (nodup_of_map h_id). rewrite map_map. revert C. induction (gr_in st) as [|p l IH]; [constructor|]. cbn [map filter]. intros C. inversion C; subst.
    destruct (Nat.eqb _ _); [|now apply IH]. cbn [map]. constructor; [|now apply IH]. intros K. apply H1. apply in_map_iff in K. destruct K as (q & E & K). apply filter_In in K. apply in_map_iff. exists q. tauto.
  Qed.
End Groups.

(** ** The network of an address *)
Section Place.
  Variable io : str -> res Z.
  Variable iob : bytes -> res Z.
  Variable other : str -> res Z.
  Notation inside := (inside io iob other).
  Notation home := (home io iob other).
  Notation homeless := (homeless io iob other).
  Lemma in_net_true n ip : is_in_net io iob other n ip = Ok true <-> inside n ip.
  Proof.
    unfold is_in_net, DhcpSpec.inside, number. split.
    - intros H. rb H a A. rb H m M. rb H i I. injection H as H. apply Z.eqb_eq in H. exists a, m, i. tauto.
    - intros (a & m & i & A & M & I & E). rewrite A, M. cbn [bind]. rewrite I. cbn [bind]. now rewrite (proj2 (Z.eqb_eq _ _) E).
  Qed.
  Lemma find_net_spec ip : forall ns o, find_net io iob other ns ip = Ok o ->
    match o with
    | Some n => exists l1 l2, ns = l1 ++ n :: l2 /\ inside n ip /\ forall m, In m l1 -> ~ inside m ip
    | None => forall n, In n ns -> ~ inside n ip
    end.
  Proof.
    induction ns as [|n ns IH]; cbn [find_net]; intros o H; [injection H as <-; contradiction|]. rb H b B. destruct b.
    - injection H as <-. exists [], ns. split; [reflexivity|]. split; [now apply in_net_true|contradiction].
    - assert (N : ~ inside n ip) by (intros X; apply in_net_true in X; congruence). specialize (IH o H). destruct o as [m|].
      + destruct IH as (l1 & l2 & -> & IN & F). exists (n :: l1), l2. split; [reflexivity|]. split; [exact IN|]. intros x [<-|X]; auto.
      + intros x [<-|X]; auto.
  Qed.
  Lemma home_unique ns a n n' : home ns a n -> home ns a n' -> n = n'.
  Proof.
    intros (l1 & l2 & -> & I & F) (l1' & l2' & E & I' & F'). revert l1' E F'. induction l1 as [|x l1 IH]; intros [|y l1'] E F'; cbn [app] in E; injection E as E E'.
    - exact E.
    - subst y. exfalso. now apply (F' n (or_introl eq_refl)).
    - subst x. exfalso. now apply (F n' (or_introl eq_refl)).
    - eapply IH; eauto; intros m M; [apply F|apply F']; now right.
  Qed.
  Lemma home_in ns a n : home ns a n -> In n ns.
  Proof. intros (l1 & l2 & -> & _). apply in_elt. Qed.
  Lemma home_not_homeless ns a n : home ns a n -> ~ homeless ns a.
  Proof. intros H X. destruct H as (l1 & l2 & -> & I & _). apply (X n); [apply in_elt|exact I]. Qed.
  Lemma place_spec ns : forall l e p, place io iob other ns l = (e, Ok p) -> NoDup l ->
    (forall k a, In (k, a) p <-> In a l /\ exists n, home ns a n /\ d_id n = k) /\ NoDup (map snd p) /\
    exists lost, e = map DNoNet lost /\ NoDup lost /\ forall a, In a lost <-> In a l /\ homeless ns a.
  Proof.
    induction l as [|a l IH]; cbn [place]; intros e p H N.
    - injection H as <- <-. split; [cbn; tauto|]. split; [constructor|]. exists []. split; [reflexivity|]. split; [constructor|cbn; tauto].
    - inversion N as [|? ? NA N']; subst. destruct (find_net io iob other ns (a_ip a)) as [[n|]|] eqn:F; [| |discriminate].
      + apply find_net_spec in F. fold (home ns a n) in F. destruct (is_in_net io iob other n (a_ip a)) as [[|]|]; try discriminate.
        destruct (place io iob other ns l) as [e' [p'|]] eqn:P; cbn [bind] in H; [|discriminate]. injection H as <- <-. destruct (IH e' p' eq_refl N') as (A & B & lost & E & NL & L). split; [|split].
        * intros k b. cbn [In]. rewrite A. split.
          -- intros [[= <- <-]|(X & Y)]; [|tauto]. split; [now left|]. eauto.
          -- intros ([<-|X] & m & M & K); [|right; split; [exact X|eauto]]. left. rewrite (home_unique ns a n m F M), K. reflexivity.
        * cbn [map snd]. constructor; [|exact B]. intros X. apply in_map_iff in X. destruct X as ((k, b) & <- & X). apply A in X. tauto.
        * exists lost. split; [exact E|]. split; [exact NL|]. intros b. rewrite L. cbn [In]. split; [tauto|]. intros ([<-|X] & HL); [|tauto]. now destruct (home_not_homeless ns a n F).
      + apply find_net_spec in F. fold (homeless ns a) in F. destruct (place io iob other ns l) as [e' p'] eqn:P. injection H as <- ->. destruct (IH e' p eq_refl N') as (A & B & lost & E & NL & L). split; [|split].
        * intros k b. rewrite A. cbn [In]. split; [tauto|]. intros ([<-|X] & m & M & K); [|eauto]. now destruct (home_not_homeless ns a m M).
        * exact B.
        * exists (a :: lost). split; [cbn [map]; now rewrite E|]. split.
          -- constructor; [|exact NL]. rewrite L. tauto.
          -- intros b. cbn [In]. rewrite L. split; [intros [<-|X]; [split; [now left|exact F]|tauto]|tauto].
  Qed.
  Lemma net_hosts_spec ns l e p n : place io iob other ns l = (e, Ok p) -> NoDup l -> NoDup (map d_id ns) -> In n ns ->
    NoDup (net_hosts p n) /\ forall a, In a (net_hosts p n) <-> In a l /\ home ns a n.
  Proof.
    intros P N IDS I. destruct (place_spec ns l e p P N) as (A & B & _). unfold net_hosts. split.
    - clear A P. induction p as [|q p IH]; [constructor|]. cbn [map filter] in *. inversion B; subst. destruct (Nat.eqb _ _); [|now apply IH]. cbn [map]. constructor; [|now apply IH].
      intros X. apply H1. apply in_map_iff in X. destruct X as (r & E & X). apply filter_In in X. apply in_map_iff. exists r. tauto.
    - intros a. rewrite in_map_iff. split.
      + intros ((k, b) & E & X). cbn [snd] in E. subst b. apply filter_In in X. destruct X as (X & K). cbn [fst] in K. apply Nat.eqb_eq in K. apply A in X. destruct X as (X & m & M & D). split; [exact X|].
        assert (m = n) by (eapply (map_inj d_id ns); eauto; [eapply home_in; eauto|congruence]). now subst.
      + intros (X & H). exists (d_id n, a). split; [reflexivity|]. apply filter_In. split; [|cbn [fst]; apply Nat.eqb_refl]. apply A. split; [exact X|]. eauto.
  Qed.
  (** Nothing is raised when everything can be read. *)
  Lemma in_net_reads n ip : (exists a, number io iob other (d_address n) a) -> (exists m, number io iob other (d_mask n) m) -> (exists i, number io iob other (PStr ip) i) -> exists b, is_in_net io iob other n ip = Ok b.
  Proof. unfold number, is_in_net. intros (a & A) (m & M) (i & I). rewrite A, M. cbn [bind]. rewrite I. cbn [bind]. eauto. Qed.
  Lemma find_net_reads ip : (exists i, number io iob other (PStr ip) i) -> forall ns, (forall n, In n ns -> net_fine io iob other n) -> exists o, find_net io iob other ns ip = Ok o.
  Proof.
    intros I. induction ns as [|n ns IH]; intros F; cbn [find_net]; [eauto|]. destruct (F n (or_introl eq_refl)) as (_ & A & (m & M & _) & _).
    destruct (in_net_reads n ip A (ex_intro _ m M) I) as (b & ->). cbn [bind]. destruct b; [eauto|]. apply IH. intros x X. apply F. now right.
  Qed.
  Lemma place_reads ns : (forall n, In n ns -> net_fine io iob other n) -> forall l, (forall a, In a l -> exists i, number io iob other (PStr (a_ip a)) i) -> exists e p, place io iob other ns l = (e, Ok p).
  Proof.
    intros F. induction l as [|a l IH]; intros R; cbn [place]; [eauto|]. destruct (find_net_reads (a_ip a) (R a (or_introl eq_refl)) ns F) as (o & O). rewrite O.
    destruct IH as (e & p & P); [intros x X; apply R; now right|]. rewrite P. destruct o as [n|]; [|eauto]. apply find_net_spec in O. destruct O as (l1 & l2 & _ & I & _). apply in_net_true in I. rewrite I. cbn [bind]. eauto.
  Qed.
End Place.
