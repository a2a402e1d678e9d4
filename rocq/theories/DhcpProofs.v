(** Proofs for the DHCP configuration: what is read. *)
From Verif Require Import Base BaseFacts Utf8Model Utf8Proofs DnModel DnSpec EntryModel EntryProofs FilterTextModel LdifTreeModel UtilModel DhcpModel DhcpSpec.
From Coq Require Import Permutation.

Lemma res_bind {A B} (r : res A) (f : A -> res B) v : bind r f = Ok v -> exists a, r = Ok a /\ f a = Ok v.
Proof. destruct r; cbn; intros H; [eauto|discriminate]. Qed.
Tactic Notation "rb" hyp(H) ident(a) ident(E) := apply res_bind in H; destruct H as (a & E & H).

(** ** Addresses *)
  Lemma addrs_from_in h a : forall ips k, In a (addrs_from h k ips) <-> a_host a = h /\ (k <= a_num a)%nat /\ nth_error ips (a_num a - k) = Some (a_ip a).
  Proof.
    induction ips as [|ip ips IH]; intros k; cbn [addrs_from In].
    - split; [tauto|]. intros (_ & _ & E). now destruct (a_num a - k)%nat.
    - rewrite IH. split.
      + intros [<-|(H & L & E)]; cbn [a_host a_num a_ip].
        * repeat split; [lia|]. now rewrite Nat.sub_diag.
        * split; [exact H|]. split; [lia|]. replace (a_num a - k)%nat with (S (a_num a - S k)) by lia. exact E.
      + intros (H & L & E). destruct (Nat.eq_dec (a_num a) k) as [K|K].
        * left. rewrite K, Nat.sub_diag in E. cbn in E. injection E as E. destruct a as [ah an ai]. cbn in *. now subst.
        * right. split; [exact H|]. split; [lia|]. replace (a_num a - k)%nat with (S (a_num a - S k)) in E by lia. exact E.
  Qed.
  Lemma host_addrs_in h a : In a (host_addrs h) <-> a_host a = h /\ nth_error (h_ips h) (a_num a) = Some (a_ip a).
  Proof. unfold host_addrs. rewrite addrs_from_in, Nat.sub_0_r. intuition lia. Qed.
  Lemma all_addrs_in hs a : In a (flat_map host_addrs hs) <-> address_of hs a.
  Proof.
    rewrite in_flat_map. unfold address_of. split.
    - intros (h & H & A). apply host_addrs_in in A. destruct A as (<- & E). tauto.
    - intros (H & E). exists (a_host a). split; [exact H|]. now apply host_addrs_in.
  Qed.
  Lemma addrs_from_nodup h : forall ips k, NoDup (addrs_from h k ips).
  Proof.
    induction ips as [|ip ips IH]; intros k; cbn [addrs_from]; constructor; [|apply IH]. intros H. apply addrs_from_in in H. cbn [a_num] in H. lia.
  Qed.
  Lemma flat_nodup {A B} (f : A -> list B) : forall l, NoDup l -> (forall x, In x l -> NoDup (f x)) -> (forall x y b, In x l -> In y l -> In b (f x) -> In b (f y) -> x = y) -> NoDup (flat_map f l).
  Proof.
    induction l as [|x l IH]; intros N F D; [constructor|]. cbn [flat_map]. inversion N as [|? ? X N']; subst.
    assert (G : forall l1 l2 : list B, NoDup l1 -> NoDup l2 -> (forall b, In b l1 -> ~ In b l2) -> NoDup (l1 ++ l2)).
    { clear. induction l1 as [|a l1 IH]; intros l2 N1 N2 H; [exact N2|]. inversion N1; subst. cbn [app]. constructor.
      - rewrite in_app_iff. intros [K|K]; [contradiction|]. apply (H a); [now left|exact K].
      - apply IH; auto. intros b B1. apply H. now right. }
    apply G.
    - apply F. now left.
    - apply IH; [exact N'| |]; intros; [apply F; now right|eapply D; eauto; now right].
    - intros b B1 B2. apply in_flat_map in B2. destruct B2 as (y & Y & B2). assert (x = y) by (eapply D; eauto; [now left|now right]). subst. contradiction.
  Qed.
  Lemma nodup_of_map {A B} (f : A -> B) l : NoDup (map f l) -> NoDup l.
  Proof. apply NoDup_map_inv. Qed.
  Lemma all_addrs_nodup hs : NoDup (map h_id hs) -> NoDup (flat_map host_addrs hs).
  Proof.
    intros N. apply flat_nodup; [now apply nodup_of_map in N|intros; apply addrs_from_nodup|]. intros x y b _ _ B1 B2. apply host_addrs_in in B1, B2. destruct B1 as (<- & _), B2 as (<- & _). reflexivity.
  Qed.
  Lemma map_inj {A B} (f : A -> B) l x y : NoDup (map f l) -> In x l -> In y l -> f x = f y -> x = y.
  Proof.
    induction l as [|z l IH]; [contradiction|]. cbn [map In]. intros N [->|X] [->|Y] E; inversion N; subst; auto.
    - exfalso. apply H1. rewrite E. now apply in_map.
    - exfalso. apply H1. rewrite <- E. now apply in_map.
  Qed.
  Lemma addr_eqb_spec hs a b : NoDup (map h_id hs) -> address_of hs a -> address_of hs b -> (addr_eqb a b = true <-> a = b).
  Proof.
    intros N (A1 & A2) (B1 & B2). unfold addr_eqb. rewrite andb_true_iff, !Nat.eqb_eq. split; [|intros ->; tauto]. intros (E1 & E2).
    assert (E : a_host a = a_host b) by (eapply map_inj; eauto). destruct a as [ah an ai], b as [bh bn bi]. cbn in *. subst. rewrite A2 in B2. now injection B2 as ->.
  Qed.
  Lemma addr_in_spec hs a l : NoDup (map h_id hs) -> address_of hs a -> (forall b, In b l -> address_of hs b) -> (addr_in a l = true <-> In a l).
  Proof.
    intros N A L. unfold addr_in. rewrite existsb_exists. split.
    - intros (b & B & E). apply (addr_eqb_spec hs) in E; auto. now subst.
    - intros H. exists a. split; [exact H|]. now apply (addr_eqb_spec hs).
  Qed.

Section Read.
  Variable lower : str -> str.
  Variable repr : bytes -> str.
  Lemma only_spec e k o : only lower e k = Ok o <-> says_maybe lower e k o.
  Proof.
    unfold only, says_maybe, says_one, says, lacks. split.
    - intros H. rb H f E. destruct f as [a|].
      + destruct (s_vals a) as [|v [|w r]] eqn:V; try discriminate. injection H as <-. exists (Some a). split; [exact E|now rewrite V].
      + now injection H as <-.
    - destruct o as [v|].
      + intros (f & E & V). rewrite E. cbn [bind]. destruct f as [a|]; [|discriminate]. now rewrite <- V.
      + intros E. now rewrite E.
  Qed.
  Lemma only_must_spec e k v : only_must lower e k = Ok v <-> says_one lower e k v.
  Proof.
    unfold only_must. split.
    - intros H. rb H o E. destruct o as [w|]; [|discriminate]. injection H as <-. exact (proj1 (only_spec e k (Some w)) E).
    - intros H. rewrite (proj2 (only_spec e k (Some v)) H). reflexivity.
  Qed.
  Lemma get_values_spec e k vs : get_values lower (PStr k) e = Ok vs <-> says lower e k vs.
  Proof.
    unfold get_values, says. split.
    - intros H. rb H o E. injection H as <-. eauto.
    - intros (o & E & ->). now rewrite E.
  Qed.
  Lemma net_of_spec k e n : net_of lower k e = Ok n <->
    d_id n = k /\ d_dn n = dn_text (e_dn e) /\ says_one lower e (S_ "cn") (d_name n) /\
    says_one lower e (S_ "ipNetworkNumber") (d_address n) /\ says_one lower e (S_ "ipNetmaskNumber") (d_mask n) /\
    says lower e (S_ "router") (d_routers n) /\ says lower e (S_ "dhcpRange") (d_ranges n) /\
    says lower e (S_ "winsServer") (d_wins n) /\ says lower e (S_ "domainNameServer") (d_dns n).
  Proof.
    unfold net_of. split.
    - intros H. rb H a1 E1. rb H a2 E2. rb H a3 E3. rb H a4 E4. rb H a5 E5. rb H a6 E6. rb H a7 E7. injection H as <-. cbn [d_id d_dn d_name d_address d_mask d_routers d_ranges d_wins d_dns].
      apply only_must_spec in E1, E2, E3. apply get_values_spec in E4, E5, E6, E7. tauto.
    - destruct n as [i d nm ad mk ro ra wi dn]. cbn [d_id d_dn d_name d_address d_mask d_routers d_ranges d_wins d_dns].
      intros (-> & -> & H1 & H2 & H3 & H4 & H5 & H6 & H7). apply only_must_spec in H1, H2, H3. apply get_values_spec in H4, H5, H6, H7.
      rewrite H1, H2, H3. cbn [bind]. rewrite H4, H5, H6, H7. reflexivity.
  Qed.
  Lemma has_key_spec e k b : has_key lower (PStr k) e = Ok b <-> (b = true /\ has lower e k) \/ (b = false /\ lacks lower e k).
  Proof.
    unfold has_key, has, lacks. split.
    - intros H. rb H o E. injection H as <-. destruct o; [left|right]; eauto.
    - intros [(-> & a & E)|(-> & E)]; now rewrite E.
  Qed.

  (** ** Networks *)
  Definition put_net (x : option pyval * dnet) (st : list dnet * list (pyval * list dnet)) : list dnet * list (pyval * list dnet) :=
    match fst x with Some m => (fst st, add_shared m (snd x) (snd st)) | None => (fst st ++ [snd x], snd st) end.
  Lemma get_nets_spec es : forall k nets shared r, get_nets lower k es nets shared = Ok r <->
    exists rs, reads (net_entry lower) k es rs /\ r = fold_left (fun st x => put_net x st) rs (nets, shared).
  Proof.
    induction es as [|e es IH]; intros k nets shared r; cbn [get_nets].
    - split; [intros [= <-]; exists []; split; [constructor|reflexivity]|]. intros (rs & R & ->). inversion R; subst. reflexivity.
    - split.
      + intros H. rb H n E. rb H s B. apply net_of_spec in E. apply has_key_spec in B. destruct B as [(-> & B)|(-> & B)].
        * rb H m M. apply only_must_spec in M. apply IH in H. destruct H as (rs & R & ->). exists ((Some m, n) :: rs). split; [|reflexivity].
          constructor; [|exact R]. unfold net_entry. cbn [fst snd]. unfold says_maybe. tauto.
        * apply IH in H. destruct H as (rs & R & ->). exists ((None, n) :: rs). split; [|reflexivity].
          constructor; [|exact R]. unfold net_entry. cbn [fst snd]. unfold says_maybe. tauto.
      + intros (rs & R & ->). inversion R as [|? ? ? x xs X XS]; subst. destruct x as [o n]. unfold net_entry in X. cbn [fst snd] in X.
        destruct X as (X1 & X2 & X3 & X4 & X5 & X6 & X7 & X8 & X9 & X10). rewrite (proj2 (net_of_spec k e n)) by tauto. cbn [bind].
        destruct o as [m|]; cbn [says_maybe] in X10.
        * rewrite (proj2 (has_key_spec e _ true)).
          -- cbn [bind]. rewrite (proj2 (only_must_spec e _ m) X10). cbn [bind]. apply IH. exists xs. split; [exact XS|reflexivity].
          -- left. split; [reflexivity|]. destruct X10 as ([a|] & E & V); [exists a; exact E|discriminate].
        * rewrite (proj2 (has_key_spec e _ false)) by (right; split; [reflexivity|exact X10]). cbn [bind]. apply IH. exists xs. split; [exact XS|reflexivity].
  Qed.
  Lemma pyval_refl v : pyval_eqb v v = true.
  Proof. now apply pyval_eqb_eq. Qed.
  Lemma firsts_snoc l m : firsts (l ++ [m]) = if mem m l then firsts l else firsts l ++ [m].
  Proof.
    induction l as [|x l IH]; [reflexivity|]. cbn [firsts app mem existsb]. rewrite IH. unfold mem in *.
    destruct (pyval_eqb m x) eqn:E; cbn [orb].
    - apply pyval_eqb_eq in E. subst x. destruct (existsb (pyval_eqb m) l); [reflexivity|]. rewrite filter_app. cbn [filter]. rewrite pyval_refl. cbn [negb]. now rewrite app_nil_r.
    - destruct (existsb (pyval_eqb m) l); [reflexivity|]. rewrite filter_app. cbn [filter].
      destruct (pyval_eqb x m) eqn:E2; [|reflexivity]. apply pyval_eqb_eq in E2. subst. now rewrite pyval_refl in E.
  Qed.
  Lemma firsts_in l m : In m (firsts l) <-> In m l.
  Proof.
    induction l as [|x l IH]; [reflexivity|]. cbn [firsts In]. rewrite filter_In, IH. destruct (pyval_eqb x m) eqn:E.
    - apply pyval_eqb_eq in E. tauto.
    - split; [tauto|]. intros [->|H]; [now rewrite pyval_refl in E|]. right. split; [exact H|reflexivity].
  Qed.
  Lemma firsts_nodup l : NoDup (firsts l).
  Proof.
    induction l as [|x l IH]; [constructor|]. cbn [firsts]. constructor.
    - rewrite filter_In. intros (_ & H). now rewrite pyval_refl in H.
    - now apply NoDup_filter.
  Qed.
  Lemma add_shared_map f m n : forall l, NoDup l ->
    add_shared m n (map (fun x => (x, f x)) l) = if mem m l then map (fun x => (x, f x ++ if pyval_eqb x m then [n] else [])) l else map (fun x => (x, f x)) l ++ [(m, [n])].
  Proof.
    induction l as [|x l IH]; intros N; [reflexivity|]. cbn [map add_shared mem existsb]. inversion N as [|? ? X N']; subst. unfold mem in *. rewrite IH by exact N'.
    destruct (pyval_eqb x m) eqn:E.
    - apply pyval_eqb_eq in E. subst x. rewrite pyval_refl. cbn [orb]. f_equal. apply map_ext_in. intros y Y. destruct (pyval_eqb y m) eqn:E2; [|now rewrite app_nil_r].
      apply pyval_eqb_eq in E2. subst. contradiction.
    - destruct (pyval_eqb m x) eqn:E2; [apply pyval_eqb_eq in E2; subst; now rewrite pyval_refl in E|]. cbn [orb].
      destruct (existsb (pyval_eqb m) l); [|reflexivity]. now rewrite app_nil_r.
  Qed.
  Lemma named_none m rs : ~ In m (names rs) -> named m rs = [].
  Proof.
    induction rs as [|x rs IH]; [reflexivity|]. cbn [names named flat_map]. destruct x as [[m'|] n]; cbn [fst snd]; intros H.
    - cbn [app In] in H. destruct (pyval_eqb m m') eqn:E; [apply pyval_eqb_eq in E; subst; tauto|]. apply IH. intros X. apply H. now right.
    - apply IH. exact H.
  Qed.
  Lemma shared_snoc rs m n : shared_of (rs ++ [(Some m, n)]) = add_shared m n (shared_of rs).
  Proof.
    unfold shared_of. rewrite add_shared_map by apply firsts_nodup. unfold names. rewrite flat_map_app. cbn [flat_map fst app]. rewrite firsts_snoc. fold (names rs).
    assert (M : mem m (firsts (names rs)) = mem m (names rs)).
    { unfold mem. apply eq_true_iff_eq. rewrite !existsb_exists. split; intros (x & X & Y); exists x; (split; [|exact Y]); revert X; rewrite firsts_in; auto. }
    rewrite M. unfold named. destruct (mem m (names rs)) eqn:D.
    - apply map_ext. intros x. rewrite flat_map_app. cbn [flat_map fst snd app]. now rewrite app_nil_r.
    - rewrite map_app. cbn [map]. rewrite flat_map_app. cbn [flat_map fst snd app]. rewrite pyval_refl. fold (named m rs).
      assert (NI : ~ In m (names rs)).
      { intros X. apply Bool.not_true_iff_false in D. apply D. apply existsb_exists. exists m. split; [exact X|apply pyval_refl]. }
      rewrite (named_none m rs NI). cbn [app]. f_equal. apply map_ext_in. intros x X. rewrite flat_map_app. cbn [flat_map fst snd app].
      destruct (pyval_eqb x m) eqn:E; [|now rewrite !app_nil_r]. apply pyval_eqb_eq in E. subst. rewrite firsts_in in X. contradiction.
  Qed.
  Lemma put_nets rs : fold_left (fun st x => put_net x st) rs ([], []) = (plain rs, shared_of rs).
  Proof.
    induction rs as [|x rs IH] using rev_ind; [reflexivity|]. rewrite fold_left_app. cbn [fold_left]. rewrite IH. destruct x as [[m|] n]; unfold put_net; cbn [fst snd].
    - rewrite shared_snoc. unfold plain. rewrite flat_map_app. cbn [flat_map fst]. now rewrite app_nil_r.
    - unfold plain, shared_of, names. rewrite !flat_map_app. cbn [flat_map fst snd app]. rewrite app_nil_r. f_equal.
      apply map_ext. intros m. unfold named. rewrite flat_map_app. cbn [flat_map fst]. now rewrite app_nil_r.
  Qed.
  Lemma add_shared_perm m n l : Permutation (flat_map snd (add_shared m n l)) (flat_map snd l ++ [n]).
  Proof.
    induction l as [|[m' ns] l IH]; [reflexivity|]. cbn [add_shared]. destruct (pyval_eqb m' m); cbn [flat_map snd].
    - rewrite <- !app_assoc. apply Permutation_app_head. apply Permutation_app_comm.
    - rewrite <- app_assoc. now apply Permutation_app_head.
  Qed.
  Lemma every_perm rs : Permutation (every_net rs) (map snd rs).
  Proof.
    induction rs as [|x rs IH] using rev_ind; [reflexivity|]. rewrite map_app. cbn [map]. unfold every_net in *. destruct x as [[m|] n]; cbn [snd].
    - rewrite shared_snoc, add_shared_perm. unfold plain in *. rewrite flat_map_app. cbn [flat_map fst]. rewrite app_nil_r, app_assoc. now apply Permutation_app_tail.
    - replace (shared_of (rs ++ [(None, n)])) with (shared_of rs).
      + unfold plain in *. rewrite flat_map_app. cbn [flat_map fst snd app]. rewrite <- IH. rewrite <- !app_assoc. apply Permutation_app_head. apply Permutation_app_comm.
      + pose proof (put_nets rs) as A. pose proof (put_nets (rs ++ [(None, n)])) as B. rewrite fold_left_app in B. cbn [fold_left] in B. rewrite A in B. unfold put_net in B. cbn [fst snd] in B. now injection B.
  Qed.
  Lemma reads_ids {A} (R : nat -> entry -> A -> Prop) (f : A -> nat) (H : forall k e x, R k e x -> f x = k) es : forall k xs, reads R k es xs -> map f xs = seq k (length xs).
  Proof.
    intros k xs X. induction X as [|k e es x xs RX X IH]; [reflexivity|]. cbn [map length seq]. now rewrite IH, (H _ _ _ RX).
  Qed.
  Lemma every_ids es rs : reads (net_entry lower) 0 es rs -> NoDup (map d_id (every_net rs)).
  Proof.
    intros H. eapply Permutation_NoDup; [apply Permutation_map; apply Permutation_sym; apply every_perm|]. rewrite map_map.
    erewrite (reads_ids (net_entry lower) (fun x => d_id (snd x))); [apply seq_NoDup| |exact H]. now intros k e x (E & _).
  Qed.

  (** ** Hosts *)
  Lemma get_hosts_spec es : forall k hs, get_hosts lower repr k es = Ok hs <-> reads (host_entry lower repr) k es hs.
  Proof.
    induction es as [|e es IH]; intros k hs; cbn [get_hosts].
    - split; [intros [= <-]; constructor|]. intros R. inversion R. reflexivity.
    - split.
      + intros H. rb H cn C. rb H a A. rb H macs M. rb H b B. rb H r R. injection H as <-. apply only_must_spec in C. apply get_values_spec in M. apply only_spec in B. apply IH in R.
        constructor; [|exact R]. unfold host_entry. cbn [h_id h_dn h_name h_ips h_macs h_boot]. unfold getitem in A. rb A o O. destruct o as [a'|]; [|discriminate]. injection A as ->.
        repeat split; eauto. exists a. exact O. exists (s_vals a). split; [exists (Some a); split; [exact O|reflexivity]|reflexivity].
      + intros R. inversion R as [|? ? ? h xs X XS]; subst. destruct h as [i d nm ips macs b]. unfold host_entry in X. cbn [h_id h_dn h_name h_ips h_macs h_boot] in X.
        destruct X as (-> & -> & (v & V & ->) & (a & A) & (vs & VS & ->) & (ms & MS & ->) & B).
        rewrite (proj2 (only_must_spec e _ v) V). cbn [bind]. unfold getitem. rewrite A. cbn [bind]. rewrite (proj2 (get_values_spec e _ ms) MS). cbn [bind]. rewrite (proj2 (only_spec e _ b) B). cbn [bind].
        rewrite (proj2 (IH (S k) xs) XS). cbn [bind]. destruct VS as (o & O & ->). rewrite A in O. injection O as <-. reflexivity.
  Qed.
  Lemma host_ids es k hs : reads (host_entry lower repr) k es hs -> NoDup (map h_id hs).
  Proof. intros H. erewrite (reads_ids (host_entry lower repr) h_id); [apply seq_NoDup| |exact H]. now intros ? ? ? (E & _). Qed.
End Read.
