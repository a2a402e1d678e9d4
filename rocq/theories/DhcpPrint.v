(** Proofs for the DHCP configuration: what is printed. *)
From Verif Require Import Base BaseFacts Utf8Model Utf8Proofs DnModel DnSpec EntryModel EntryProofs FilterTextModel LdifTreeModel UtilModel DhcpModel DhcpSpec DhcpProofs DhcpGroups.
From Coq Require Import Permutation.

Lemma andthen_none a b ls : andthen a b = (ls, None) -> exists l1 l2, a = (l1, None) /\ b = (l2, None) /\ ls = l1 ++ l2.
Proof.
  unfold andthen. destruct a as [l1 [x|]], b as [l2 y]; cbn [fst snd]; [discriminate|]. intros [= <- ->]. eauto.
Qed.
Lemma nodup_app {A} (l1 l2 : list A) : NoDup (l1 ++ l2) <-> NoDup l1 /\ NoDup l2 /\ forall x, In x l1 -> ~ In x l2.
Proof.
  induction l1 as [|a l1 IH]; cbn [app].
  - split; [intros H; repeat split; [constructor|exact H|contradiction]|tauto].
  - split.
    + intros H. inversion H as [|? ? H1 H2]; subst. apply IH in H2. destruct H2 as (N1 & N2 & D). rewrite in_app_iff in H1. split; [constructor; tauto|]. split; [exact N2|]. intros x [<-|X]; [tauto|auto].
    + intros (N1 & N2 & D). inversion N1 as [|? ? H1 H2]; subst. constructor.
      * rewrite in_app_iff. intros [X|X]; [contradiction|]. now apply (D a (or_introl eq_refl)).
      * apply IH. repeat split; auto. intros x X. apply D. now right.
Qed.

Section Print.
  Variable io : str -> res Z.
  Variable iob : bytes -> res Z.
  Variable other : str -> res Z.
  Variable repr : bytes -> str.
  Variable order : nat -> option nat -> list haddr -> list haddr.
  Hypothesis ORDER : forall n g l, Permutation (order n g l) l.
  Variable hs : list host.
  Hypothesis IDS : NoDup (map h_id hs).
  Variable gs : list (group * list pyval).
  Hypothesis GIDS : NoDup (map (fun x => g_id (fst x)) gs).
  Variable st : grouped.
  Hypothesis G : GI hs gs st.
  Notation of a := (group_for gs (a_host a)).

  Lemma group_for_in h g : group_for gs h = Some g -> exists x, In x gs /\ fst x = g.
  Proof.
    unfold group_for. destruct (find _ gs) as [x|] eqn:F; [|discriminate]. intros [= <-]. apply find_some in F. exists x. tauto.
  Qed.
  Lemma same_group h h' g g' : group_for gs h = Some g -> group_for gs h' = Some g' -> g_id g = g_id g' -> g = g'.
  Proof.
    intros H H' E. apply group_for_in in H, H'. destruct H as (x & X & <-), H' as (y & Y & <-). f_equal. eapply (map_inj (fun z => g_id (fst z)) gs); eauto.
  Qed.
  Lemma of_group h : In h hs -> group_of st h = group_for gs h.
  Proof. intros H. now apply (proj1 G). Qed.
  Definition known (l : list haddr) : Prop := forall a, In a l -> address_of hs a.

  Lemma print_addr_spec d p a : print_addr repr d p a = host_block repr d p a.
  Proof. reflexivity. Qed.
  (** A group *)
  Lemma print_group_spec net h0 g d addrs p : group_for gs h0 = Some g -> known addrs -> NoDup addrs ->
    let '(ls, rest) := print_group repr order st net g d addrs p in
    NoDup rest /\ (forall a, In a rest <-> In a addrs /\ of a <> Some g) /\
    exists l, NoDup l /\ (forall a, In a l <-> In a addrs /\ of a = Some g) /\
      ls = match l with [] => [] | _ => group_block repr d p (g, l) end.
  Proof.
    intros HG K N. unfold print_group. set (addresses := filter (fun a => addr_in a addrs) (flat_map host_addrs (hosts_in st g))).
    assert (KA : known (flat_map host_addrs (hosts_in st g))).
    { intros a A. apply in_flat_map in A. destruct A as (h & H & A). apply (hosts_in_spec hs gs st g h G) in H; [|intros h' g' _ E1 E2; eapply same_group; eauto].
      apply host_addrs_in in A. destruct A as (<- & A). split; [tauto|exact A]. }
    assert (AN : NoDup addresses).
    { apply NoDup_filter. apply flat_nodup; [eapply hosts_in_nodup; exact G|intros; apply addrs_from_nodup|]. intros x y b _ _ B1 B2. apply host_addrs_in in B1, B2. destruct B1 as (<- & _), B2 as (<- & _). reflexivity. }
    assert (AI : forall a, In a addresses <-> In a addrs /\ of a = Some g).
    { intros a. unfold addresses. rewrite filter_In, in_flat_map. split.
      - intros ((h & H & A) & B). assert (KAa : address_of hs a) by (apply KA; apply in_flat_map; eauto). apply (addr_in_spec hs a addrs IDS KAa K) in B. split; [exact B|].
        apply (hosts_in_spec hs gs st g h G) in H; [|intros h' g' _ E1 E2; eapply same_group; eauto]. apply host_addrs_in in A. destruct A as (<- & A). tauto.
      - intros (A & E). pose proof (K a A) as Ka. split; [|now apply (addr_in_spec hs a addrs IDS Ka K)]. exists (a_host a). split.
        + apply (hosts_in_spec hs gs st g _ G); [intros h' g' _ E1 E2; eapply same_group; eauto|]. split; [apply Ka|exact E].
        + apply host_addrs_in. split; [reflexivity|apply Ka]. }
    assert (KA' : known addresses) by (intros a A; apply AI in A; apply K; tauto).
    split; [now apply NoDup_filter|]. split.
    - intros a. rewrite filter_In, negb_true_iff. split.
      + intros (A & B). split; [exact A|]. intros E. apply Bool.not_true_iff_false in B. apply B. apply (addr_in_spec hs a addresses IDS (K a A) KA'). apply AI. tauto.
      + intros (A & B). split; [exact A|]. apply Bool.not_true_iff_false. intros C. apply (addr_in_spec hs a addresses IDS (K a A) KA') in C. apply AI in C. tauto.
    - exists (order net (Some (g_id g)) addresses). pose proof (ORDER net (Some (g_id g)) addresses) as P. split; [|split].
      + eapply Permutation_NoDup; [apply Permutation_sym; exact P|exact AN].
      + intros a. rewrite <- AI. split; apply Permutation_in; [exact P|now apply Permutation_sym].
      + destruct addresses as [|a0 l0].
        * apply Permutation_sym, Permutation_nil in P. now rewrite P.
        * destruct (order net (Some (g_id g)) (a0 :: l0)) as [|a1 l1] eqn:O; [apply Permutation_nil in P; discriminate|]. reflexivity.
  Qed.
  Definition the_name (n : dnet) : str := match d_name n with PStr s => s | PBytes _ => [] end.
  Lemma net_domain_spec n domain d : net_domain n domain = Ok d -> d_name n = PStr (the_name n) /\ d = the_name n ++ S_ "." ++ domain.
  Proof. unfold net_domain, the_name. destruct (d_name n); [|discriminate]. intros [= <-]. tauto. Qed.
  Lemma print_groups_spec n domain p : forall l addrs ls rest, print_groups repr order st n domain p l addrs = ((ls, None), rest) -> known l -> known addrs -> NoDup addrs ->
    exists blocks : list (group * list haddr), ls = flat_map (group_block repr (the_name n ++ S_ "." ++ domain) p) blocks /\
      (blocks <> [] -> d_name n = PStr (the_name n)) /\
      NoDup (map (fun x => g_id (fst x)) blocks) /\ NoDup (flat_map snd blocks ++ rest) /\
      (forall a, In a (flat_map snd blocks ++ rest) <-> In a addrs) /\
      (forall g l', In (g, l') blocks -> l' <> [] /\ forall a, In a l' -> of a = Some g) /\
      (forall a b g, In a rest -> In b l -> of b = Some g -> of a <> Some g).
  Proof.
    induction l as [|b l IH]; intros addrs ls rest H KL K N; cbn [print_groups] in H.
    - injection H as <- <-. exists []. cbn. repeat split; auto; try constructor; try contradiction; tauto.
    - assert (KL' : known l) by (intros a A; apply KL; now right). pose proof (proj1 (KL b (or_introl eq_refl))) as Kb. rewrite (of_group _ Kb) in H. destruct (of b) as [g|] eqn:Ob.
      + destruct (net_domain n domain) as [d|] eqn:ND; [|discriminate]. apply net_domain_spec in ND. destruct ND as (NM & ->).
        pose proof (print_group_spec (d_id n) (a_host b) g (the_name n ++ S_ "." ++ domain) addrs p Ob K N) as PG.
        destruct (print_group repr order st (d_id n) g (the_name n ++ S_ "." ++ domain) addrs p) as [ls1 addrs1]. destruct PG as (N1 & I1 & l1 & NL & IL & E1).
        destruct (print_groups repr order st n domain p l addrs1) as [p2 rest2] eqn:P2. pose proof (f_equal fst H) as H1. pose proof (f_equal snd H) as H2. cbn [fst snd] in H1, H2. subst rest2. clear H. rename H1 into H. apply andthen_none in H. destruct H as (x1 & ls2 & [= <-] & -> & ->).
        assert (K1 : known addrs1) by (intros a A; apply I1 in A; apply K; tauto).
        destruct (IH addrs1 ls2 rest P2 KL' K1 N1) as (blocks & -> & B2 & B3 & B4 & B5 & B6 & B7).
        assert (R1 : forall a, In a rest -> of a <> Some g). { intros a A. assert (X : In a addrs1) by (apply B5; apply in_app_iff; now right). apply I1 in X. tauto. }
        destruct l1 as [|a1 l1'].
        * subst ls1. exists blocks. split; [reflexivity|]. split; [exact B2|]. split; [exact B3|]. split; [exact B4|]. split; [|split; [exact B6|]].
          -- intros a. rewrite B5, I1. split; [tauto|]. intros A. split; [exact A|]. intros E. assert (X : In a []) by (apply IL; tauto). exact X.
          -- intros a c g' A [<-|C] E; [|eapply B7; eauto]. rewrite Ob in E. injection E as <-. now apply R1.
        * remember (a1 :: l1') as l1 eqn:L1. exists ((g, l1) :: blocks). split; [|split; [|split; [|split; [|split; [|split]]]]].
          -- cbn [flat_map]. f_equal. rewrite E1, L1. reflexivity.
          -- intros _. exact NM.
          -- cbn [map fst]. constructor; [|exact B3]. intros X. apply in_map_iff in X. destruct X as ((g', l') & E & X). cbn [fst] in E. destruct (B6 g' l' X) as (NE & OF).
             destruct l' as [|a' l'']; [now destruct NE|]. pose proof (OF a' (or_introl eq_refl)) as O'. assert (g' = g) by (eapply same_group; eauto). subst g'.
             assert (Y : In a' addrs1) by (apply B5; apply in_app_iff; left; apply in_flat_map; exists (g, a' :: l''); split; [exact X|now left]). apply I1 in Y. tauto.
          -- cbn [flat_map snd]. rewrite <- app_assoc. apply nodup_app. split; [exact NL|]. split; [exact B4|]. intros a A X. apply IL in A. apply B5 in X. apply I1 in X. tauto.
          -- intros a. cbn [flat_map snd]. rewrite <- app_assoc, in_app_iff, B5, IL, I1. split; [tauto|]. intros A. destruct (of a) as [g'|] eqn:Oa.
             ++ destruct (Nat.eq_dec (g_id g') (g_id g)) as [E|E].
                ** left. split; [exact A|]. f_equal. eapply same_group; eauto.
                ** right. split; [exact A|]. congruence.
             ++ right. split; [exact A|discriminate].
          -- intros g' l' [[= <- <-]|X]; [|now apply B6]. split; [rewrite L1; discriminate|]. intros a A. apply IL in A. tauto.
          -- intros a c g' A [<-|C] E; [|eapply B7; eauto]. rewrite Ob in E. injection E as <-. now apply R1.
      + destruct (IH addrs ls rest H KL' K N) as (blocks & B1 & B2 & B3 & B4 & B5 & B6 & B7). exists blocks. split; [exact B1|]. split; [exact B2|]. split; [exact B3|]. split; [exact B4|]. split; [exact B5|]. split; [exact B6|].
        intros a c g A [<-|C] E; [congruence|eapply B7; eauto].
  Qed.
  (** The network itself *)
  Lemma texts_spec l ts : texts l = Ok ts <-> l = map PStr ts.
  Proof.
    revert ts. induction l as [|v l IH]; intros ts; cbn [texts].
    - split; [intros [= <-]; reflexivity|]. destruct ts; [reflexivity|discriminate].
    - destruct v as [s|b].
      + split.
        * intros H. rb H t E. injection H as <-. apply IH in E. now subst.
        * destruct ts as [|t ts]; [discriminate|]. intros [= -> E]. apply IH in E. now rewrite E.
      + split; [discriminate|]. destruct ts; discriminate.
  Qed.
  Lemma option_line_spec name l ls : option_line name l = Ok ls <-> list_option name l ls.
  Proof.
    unfold option_line, list_option. destruct l as [|v l].
    - split; [intros [= <-]; left; tauto|]. intros [(_ & ->)|(H & _)]; [reflexivity|now destruct H].
    - unfold commas. split.
      + intros H. rb H t E. rb E ts T. injection E as <-. injection H as <-. right. split; [discriminate|]. exists ts. split; [now apply texts_spec|reflexivity].
      + intros [(H & _)|(_ & ts & E & ->)]; [discriminate|]. apply texts_spec in E. rewrite E. reflexivity.
  Qed.
  Lemma net_lines_spec n domain ls : net_lines io iob other repr n domain = Ok ls <-> subnet_block io iob other repr n domain ls.
  Proof.
    unfold net_lines, subnet_block, number. split.
    - intros H. rb H m M. rb H nm NM. rb H r R. rb H w W. rb H d D. injection H as <-. apply option_line_spec in R, W, D. exists m, nm, r, w, d. repeat (split; [eassumption|]). reflexivity.
    - intros (m & nm & r & w & d & M & NM & R & W & D & ->). apply option_line_spec in R, W, D. rewrite M. cbn [bind]. rewrite NM. cbn [bind]. rewrite R. cbn [bind]. rewrite W. cbn [bind]. rewrite D. reflexivity.
  Qed.

  Variable ns : list dnet.
  Hypothesis NIDS : NoDup (map d_id ns).
  Variable placed : list (nat * haddr).
  Variable e : list note.
  Hypothesis PLACE : place io iob other ns (flat_map host_addrs hs) = (e, Ok placed).
  Lemma print_net_spec domain p n out : In n ns -> print_net io iob other repr order st placed domain p n = (out, None) -> net_block io iob other repr hs gs ns domain p n out.
  Proof.
    intros I. unfold print_net. destruct (net_lines io iob other repr n domain) as [ls|] eqn:NL; [|discriminate]. apply net_lines_spec in NL.
    destruct (net_hosts_spec io iob other ns (flat_map host_addrs hs) e placed n PLACE (all_addrs_nodup hs IDS) NIDS I) as (HN & HI). set (hosts := net_hosts placed n) in *.
    assert (K : known hosts). { intros a A. apply HI in A. now apply all_addrs_in. }
    destruct (print_groups repr order st n domain p hosts hosts) as [pg rest] eqn:PG. intros H. apply andthen_none in H. destruct H as (x & l2 & [= <-] & H & ->). apply andthen_none in H. destruct H as (lg & lr & -> & H & ->).
    destruct (print_groups_spec n domain p hosts hosts lg rest PG K K HN) as (blocks & -> & B2 & B3 & B4 & B5 & B6 & B7).
    assert (NG : forall a, In a rest -> of a = None).
    { intros a A. destruct (of a) as [g|] eqn:O; [|reflexivity]. exfalso. eapply (B7 a a g A); eauto. apply B5. apply in_app_iff. now right. }
    exists ls, (the_name n), blocks. unfold print_left in H. destruct rest as [|r0 rest'] eqn:RE.
    - injection H as <-. exists []. split; [exact NL|]. cbn zeta. split; [reflexivity|]. split; [exact B4|]. split; [|split; [|split; [exact B3|split; [exact B6|contradiction]]]].
      + intros a. rewrite B5, HI, all_addrs_in. reflexivity.
      + intros NE. apply B2. intros ->. now destruct NE.
    - rewrite <- RE in *. assert (RN : rest <> []) by (rewrite RE; discriminate). clear r0 rest' RE. destruct (net_domain n domain) as [d|] eqn:ND; [|discriminate]. injection H as <-. apply net_domain_spec in ND. destruct ND as (NM & ->).
      pose proof (ORDER (d_id n) None rest) as P. exists (order (d_id n) None rest). split; [exact NL|]. cbn zeta. split; [reflexivity|]. split; [|split; [|split; [|split; [exact B3|split; [exact B6|]]]]].
      + eapply Permutation_NoDup; [apply Permutation_app_head; apply Permutation_sym; exact P|exact B4].
      + intros a. rewrite <- all_addrs_in, <- HI, <- B5. split; apply Permutation_in; apply Permutation_app_head; [exact P|now apply Permutation_sym].
      + intros _. exact NM.
      + intros a A. apply NG. eapply Permutation_in; eauto.
  Qed.
  Lemma print_nets_spec domain p : forall l out, (forall n, In n l -> In n ns) -> print_nets io iob other repr order st placed domain p l = (out, None) ->
    exists outs, Forall2 (net_block io iob other repr hs gs ns domain p) l outs /\ out = concat outs.
  Proof.
    induction l as [|n l IH]; intros out S0 H; cbn [print_nets] in H.
    - injection H as <-. exists []. split; [constructor|reflexivity].
    - apply andthen_none in H. destruct H as (l1 & l2 & H1 & H2 & ->). apply print_net_spec in H1; [|apply S0; now left]. destruct (IH l2 (fun m M => S0 m (or_intror M)) H2) as (outs & F & ->).
      exists (l1 :: outs). split; [now constructor|reflexivity].
  Qed.
  Lemma print_all_spec domain nets : forall shared out, (forall n, In n nets -> In n ns) -> (forall n, In n (flat_map snd shared) -> In n ns) ->
    print_all io iob other repr order st placed domain shared nets = (out, None) ->
    exists o1 o2, Forall2 (shared_block io iob other repr hs gs ns domain) shared o1 /\ Forall2 (net_block io iob other repr hs gs ns domain []) nets o2 /\ out = concat o1 ++ concat o2.
  Proof.
    induction shared as [|s shared IH]; intros out S1 S2 H; cbn [print_all] in H.
    - apply print_nets_spec in H; [|exact S1]. destruct H as (outs & F & ->). exists [], outs. split; [constructor|]. split; [exact F|reflexivity].
    - apply andthen_none in H. destruct H as (l1 & l2 & H1 & H2 & ->). destruct (IH l2 S1) as (o1 & o2 & F1 & F2 & ->); [intros n N; apply S2; cbn [flat_map]; apply in_app_iff; now right|exact H2|].
      unfold print_shared in H1. apply andthen_none in H1. destruct H1 as (x & y & [= <-] & H1 & ->). apply andthen_none in H1. destruct H1 as (z & w & H1 & [= <-] & ->).
      apply print_nets_spec in H1; [|intros n N; apply S2; cbn [flat_map]; apply in_app_iff; now left]. destruct H1 as (outs & F & ->).
      exists (([S_ "shared-network """ ++ shown repr (fst s) ++ S_ """ {"] ++ concat outs ++ [S_ "}"; []]) :: o1), o2. split; [|split; [exact F2|]].
      + constructor; [|exact F1]. exists outs. split; [exact F|reflexivity].
      + cbn [concat]. now rewrite <- !app_assoc.
  Qed.

  (** Nothing is raised when everything can be read. *)
  Lemma list_option_runs name l : texts_only l -> exists ls, option_line name l = Ok ls.
  Proof.
    intros T. assert (E : exists ts, texts l = Ok ts).
    { induction l as [|v l IH]; [cbn; eauto|]. destruct (T v (or_introl eq_refl)) as (s & ->). destruct IH as (ts & E); [intros w W; apply T; now right|]. cbn [texts]. rewrite E. cbn [bind]. eauto. }
    destruct E as (ts & E). unfold option_line, commas. destruct l; [eauto|]. rewrite E. cbn [bind]. eauto.
  Qed.
  Lemma net_lines_runs n domain : net_fine io iob other n -> exists ls, net_lines io iob other repr n domain = Ok ls.
  Proof.
    intros (_ & _ & (m & M & R) & T1 & T2 & T3). unfold net_lines. unfold number in M. rewrite M. cbn [bind]. unfold ntoa. replace ((0 <=? m) && (m <? 2 ^ 32)) with true by (symmetry; apply andb_true_iff; split; [apply Z.leb_le|apply Z.ltb_lt]; lia). cbn [bind].
    destruct (list_option_runs (S_ "routers") _ T1) as (? & ->). cbn [bind]. destruct (list_option_runs (S_ "netbios-name-servers") _ T2) as (? & ->). cbn [bind]. destruct (list_option_runs (S_ "domain-name-servers") _ T3) as (? & ->). cbn [bind]. eauto.
  Qed.
  Lemma print_groups_runs n domain p : (exists s, d_name n = PStr s) -> forall l addrs, exists ls rest, print_groups repr order st n domain p l addrs = ((ls, None), rest).
  Proof.
    intros (s & S0). induction l as [|a l IH]; intros addrs; cbn [print_groups]; [eauto|]. destruct (group_of st (a_host a)) as [g|]; [|apply IH]. unfold net_domain. rewrite S0.
    destruct (print_group repr order st (d_id n) g (s ++ S_ "." ++ domain) addrs p) as [ls1 addrs1]. destruct (IH addrs1) as (ls & rest & ->). unfold andthen. cbn [fst snd]. eauto.
  Qed.
  Lemma print_net_runs domain p n : net_fine io iob other n -> exists out, print_net io iob other repr order st placed domain p n = (out, None).
  Proof.
    intros F. unfold print_net. destruct (net_lines_runs n domain F) as (ls & ->). destruct F as (NM & _). destruct (print_groups_runs n domain p NM (net_hosts placed n) (net_hosts placed n)) as (lg & rest & ->).
    unfold print_left, net_domain, andthen. destruct NM as (s & ->). destruct rest; cbn [fst snd]; eauto.
  Qed.
  Lemma print_nets_runs domain p : forall l, (forall n, In n l -> net_fine io iob other n) -> exists out, print_nets io iob other repr order st placed domain p l = (out, None).
  Proof.
    induction l as [|n l IH]; intros F; cbn [print_nets]; [eauto|]. destruct (print_net_runs domain p n (F n (or_introl eq_refl))) as (o1 & ->). destruct IH as (o2 & ->); [intros m M; apply F; now right|]. unfold andthen. cbn [fst snd]. eauto.
  Qed.
  Lemma print_all_runs domain nets : (forall n, In n nets -> net_fine io iob other n) -> forall shared, (forall n, In n (flat_map snd shared) -> net_fine io iob other n) ->
    exists out, print_all io iob other repr order st placed domain shared nets = (out, None).
  Proof.
    intros F. induction shared as [|s shared IH]; intros F2; cbn [print_all]; [now apply print_nets_runs|]. destruct IH as (o2 & ->); [intros n N; apply F2; cbn [flat_map]; apply in_app_iff; now right|].
    unfold print_shared. destruct (print_nets_runs domain tab (snd s)) as (o1 & ->); [intros n N; apply F2; cbn [flat_map]; apply in_app_iff; now left|]. unfold andthen. cbn [fst snd]. eauto.
  Qed.
End Print.

(** ** The whole script *)
Section Whole.
  Variable lower : str -> str.
  Variable io : str -> res Z.
  Variable iob : bytes -> res Z.
  Variable other : str -> res Z.
  Variable repr : bytes -> str.
  Variable order : nat -> option nat -> list haddr -> list haddr.
  Hypothesis ORDER : forall n g l, Permutation (order n g l) l.
  Lemma group_ids es gs : reads (group_entry lower) 0 es gs -> NoDup (map (fun x => g_id (fst x)) gs).
  Proof. intros H. erewrite (reads_ids (group_entry lower) (fun x => g_id (fst x))); [apply seq_NoDup| |exact H]. now intros ? ? ? (E & _). Qed.
  Lemma config_written nets hosts groups domain out notes : dhcp lower io iob other repr order nets hosts groups domain = (out, notes, None) ->
    exists rs hs gs, reads (net_entry lower) 0 nets rs /\ reads (host_entry lower repr) 0 hosts hs /\ reads (group_entry lower) 0 groups gs /\ NoDup (map h_dn hs) /\
      config io iob other repr hs gs rs domain out /\ notes_ok io iob other hs gs (every_net rs) notes.
  Proof.
    unfold dhcp. destruct (get_nets lower 0 nets [] []) as [[ns shared]|] eqn:N; [|discriminate]. apply get_nets_spec in N. destruct N as (rs & R & E). rewrite put_nets in E. injection E as -> ->.
    destruct (get_hosts lower repr 0 hosts) as [hs|] eqn:H; [|discriminate]. apply get_hosts_spec in H. pose proof (host_ids _ _ _ _ _ H) as IDS.
    destruct (get_groups lower groups hs) as [e [st|]] eqn:GG; [|discriminate].
    assert (DNS : NoDup (map h_dn hs)).
    { unfold get_groups in GG. destruct (dn_table hs []) as [t|] eqn:T; [|discriminate]. apply dn_table_spec in T. tauto. }
    destruct (get_groups_spec lower hs IDS DNS groups e st GG) as (gs & RG & GI0 & N1 & N2). pose proof (group_ids _ _ RG) as GIDS.
    change (all_nets (plain rs) (shared_of rs)) with (every_net rs). destruct (place io iob other (every_net rs) (flat_map host_addrs hs)) as [e' [placed|]] eqn:P; [|discriminate].
    destruct (print_all io iob other repr order st placed domain (shared_of rs) (plain rs)) as [ls x] eqn:PA. intros [= <- <- ->]. exists rs, hs, gs. split; [exact R|]. split; [exact H|]. split; [exact RG|]. split; [exact DNS|]. split.
    - unfold config. eapply (print_all_spec io iob other repr order ORDER hs IDS gs GIDS st GI0 (every_net rs) (every_ids lower _ _ R) placed e' P); [| |exact PA].
      + intros n I. unfold every_net. apply in_app_iff. now left.
      + intros n I. unfold every_net. apply in_app_iff. now right.
    - destruct (place_spec io iob other (every_net rs) _ _ _ P (all_addrs_nodup hs IDS)) as (_ & _ & lost & -> & NL & L). exists e, lost. split; [reflexivity|]. split; [exact NL|]. split; [|split; [|split]].
      + intros a. rewrite L, all_addrs_in. reflexivity.
      + intros y Y. destruct (N1 y Y) as (h & g & ms & -> & _). eauto.
      + intros. eapply N2; eauto.
      + intros h g Y. destruct (N1 _ Y) as (h' & g' & ms & [= <- <-] & ? & ? & ?). eauto.
  Qed.
  Lemma config_runs nets hosts groups domain rs hs gs : reads (net_entry lower) 0 nets rs -> reads (host_entry lower repr) 0 hosts hs -> reads (group_entry lower) 0 groups gs -> NoDup (map h_dn hs) ->
    (forall n, In n (every_net rs) -> net_fine io iob other n) -> (forall h, In h hs -> host_fine io iob other h) ->
    exists out notes, dhcp lower io iob other repr order nets hosts groups domain = (out, notes, None).
  Proof.
    intros R H RG DNS NF HF. unfold dhcp. pose proof (host_ids _ _ _ _ _ H) as IDS. pose proof H as H'. apply get_hosts_spec in H'.
    rewrite (proj2 (get_nets_spec lower nets 0%nat [] [] (plain rs, shared_of rs))) by (exists rs; split; [exact R|symmetry; apply put_nets]). rewrite H'.
    destruct (get_groups_runs lower hs IDS DNS groups gs RG) as (e & st & GG). rewrite GG.
    destruct (place_reads io iob other (every_net rs) NF (flat_map host_addrs hs)) as (e' & placed & P).
    { intros a A. apply all_addrs_in in A. destruct A as (A1 & A2). apply (HF _ A1). eapply nth_error_In; eauto. }
    change (all_nets (plain rs) (shared_of rs)) with (every_net rs). rewrite P. destruct (print_all_runs io iob other repr order st placed domain (plain rs)) with (shared := shared_of rs) as (out & ->).
    - intros n I. apply NF. unfold every_net. apply in_app_iff. now left.
    - intros n I. apply NF. unfold every_net. apply in_app_iff. now right.
    - eauto.
  Qed.
End Whole.
