(** Proofs for ZonesModel: the files have the texts of the specification. *)
From Verif Require Import Base BaseFacts Utf8Model DnModel EntryModel UtilModel ToolsModel ZonesModel ZonesSpec.
From Coq Require Import Lia.

Definition join (a b : option str) : option str :=
  match a, b with None, _ => b | _, None => a | Some x, Some y => Some (x ++ y) end.
Lemma put_at_same : forall ts k s t, nth_error ts k = Some t -> nth_error (put_at k s ts) k = Some (put t s).
Proof. induction ts as [|a ts IH]; intros [|k] s t H; cbn in *; try discriminate; eauto. congruence. Qed.
Lemma put_at_other : forall ts k j s, k <> j -> nth_error (put_at k s ts) j = nth_error ts j.
Proof. induction ts as [|a ts IH]; intros [|k] [|j] s H; cbn; auto; try congruence. Qed.
Lemma put_at_length : forall ts k s, length (put_at k s ts) = length ts.
Proof. induction ts as [|a ts IH]; intros [|k] s; cbn; auto. Qed.
Lemma fold_flat {A B C} (f : A -> C -> B -> A) (g : C -> list B) : forall l a,
  fold_left (fun p c => fold_left (fun q b => f q c b) (g c) p) l a = fold_left (fun q cb => f q (fst cb) (snd cb)) (flat_map (fun c => map (pair c) (g c)) l) a.
Proof.
  induction l as [|c l IH]; intro a; [reflexivity|]. cbn. rewrite fold_left_app, IH. f_equal.
  generalize (g c), a. clear. induction l as [|b l IH]; intro a; [reflexivity|]. cbn. apply IH.
Qed.

Section Proofs.
  Variable lower : str -> str.
  Variable io : str -> res Z.
  Variable other : str -> res Z.
  Variable repr : bytes -> str.
  Variable domain : str.
  Variable zones : list zone.
  Notation zone_has := (zone_has io other).
  Notation home_is := (home_is io other zones).
  Notation nets_reverse := (nets_reverse io other domain).
  Notation nets_forward := (nets_forward io other).

  Definition last_is (n : net) (k : nat) (zs : list zone) (h h' : option nat) : Prop :=
    (h' = h /\ forall j z, nth_error zs j = Some z -> zone_has z n = false) \/
    (exists j z, h' = Some (k + j)%nat /\ nth_error zs j = Some z /\ zone_has z n = true /\ forall i y, (j < i)%nat -> nth_error zs i = Some y -> zone_has y n = false).
  Lemma reverse_net_ok : forall n zs ts k h ts' h', length ts = length zs -> reverse_net io other domain n k zs ts h = Ok (ts', h') ->
    length ts' = length zs /\ last_is n k zs h h' /\
    (forall j z t, nth_error zs j = Some z -> nth_error ts j = Some t ->
       if zone_has z n then exists f, net_reverse io other n domain = Ok f /\ nth_error ts' j = Some (put t f) else nth_error ts' j = Some t).
  Proof.
    intros n. induction zs as [|z zs IH]; intros [|t ts] k h ts' h' L H; try discriminate L.
    - cbn in H. injection H as <- <-. split; [reflexivity|]. split; [left; split; [reflexivity|]; intros [|j] z D; discriminate|]. intros [|j] z t D; discriminate.
    - cbn in L. injection L as L. cbn [reverse_net] in H. destruct (aton io other (n_address n)) as [ip|x] eqn:A; cbn [bind] in H; [|discriminate].
      assert (ZH : zone_has z n = (Z.land ip (z_mask z) =? z_address z)) by (unfold ZonesSpec.zone_has; now rewrite A).
      destruct (Z.land ip (z_mask z) =? z_address z) eqn:E.
      + destruct (net_reverse io other n domain) as [f|x] eqn:R; cbn [bind] in H; [|discriminate].
        destruct (reverse_net io other domain n (S k) zs ts (Some k)) as [[ts1 h1]|x] eqn:Q; cbn [bind fst snd] in H; [|discriminate].
        injection H as <- <-. destruct (IH _ _ _ _ _ L Q) as (L1 & H1 & N1). split; [cbn; lia|]. split.
        * right. destruct H1 as [[-> F]|(j & y & -> & J & Y & F)].
          -- exists 0%nat, z. rewrite Nat.add_0_r. split; [reflexivity|]. split; [reflexivity|]. split; [exact ZH|]. intros [|i] y I D; [lia|]. exact (F i y D).
          -- exists (S j), y. split; [f_equal; lia|]. split; [exact J|]. split; [exact Y|]. intros [|i] y' I D; [lia|]. apply (F i y'); [lia|exact D].
        * intros [|j] y u D U; cbn in D, U.
          -- injection D as <-. injection U as <-. rewrite ZH. exists f. auto.
          -- cbn [nth_error]. exact (N1 j y u D U).
      + destruct (reverse_net io other domain n (S k) zs ts h) as [[ts1 h1]|x] eqn:Q; cbn [bind fst snd] in H; [|discriminate].
        injection H as <- <-. destruct (IH _ _ _ _ _ L Q) as (L1 & H1 & N1). split; [cbn; lia|]. split.
        * destruct H1 as [[-> F]|(j & y & -> & J & Y & F)].
          -- left. split; [reflexivity|]. intros [|i] y D; [cbn in D; congruence|]. exact (F i y D).
          -- right. exists (S j), y. split; [f_equal; lia|]. split; [exact J|]. split; [exact Y|]. intros [|i] y' I D; [lia|]. apply (F i y'); [lia|exact D].
        * intros [|j] y u D U; cbn in D, U.
          -- injection D as <-. injection U as <-. rewrite ZH. reflexivity.
          -- cbn [nth_error]. exact (N1 j y u D U).
  Qed.
  Lemma last_home : forall n h, last_is n 0 zones None h -> home_is n h.
  Proof.
    intros n h [[-> F]|(j & z & -> & J & Y & F)]; cbn; [exact F|]. split; [eauto|]. exact F.
  Qed.

  Notation zone_net := (zone_net lower repr).
  Notation zone_host := (zone_host lower repr).
  Definition homes (ps : list (net * option nat)) : Prop := forall p, In p ps -> home_is (fst p) (snd p).
  Lemma got_nets_ok : forall es st acc st' acc', length (f_reverse st) = length zones -> homes acc ->
    got_nets lower io other repr domain zones es st acc = Ok (st', acc') ->
    exists ns nf ps, Forall2 (fun e n => zone_net e = Ok n) es ns /\ nets_forward ns nf /\ f_forward st' = f_forward st ++ nf /\
      acc' = acc ++ ps /\ map fst ps = ns /\ homes acc' /\ length (f_reverse st') = length zones /\
      (forall k z t, nth_error zones k = Some z -> nth_error (f_reverse st) k = Some t -> exists u, nets_reverse z ns u /\ nth_error (f_reverse st') k = Some (join t u)).
  Proof.
    induction es as [|e es IH]; intros st acc st' acc' L HA H; cbn [got_nets] in H.
    - injection H as <- <-. exists [], [], []. rewrite !app_nil_r. repeat split; auto; try constructor.
      intros k z t K T. exists None. split; [constructor|]. rewrite T. now destruct t.
    - destruct (zone_net e) as [n|x] eqn:N; cbn [bind] in H; [|discriminate].
      destruct (net_forward io other n) as [f|x] eqn:F; cbn [bind] in H; [|discriminate].
      destruct (reverse_net io other domain n 0 zones (f_reverse st) None) as [[ts h]|x] eqn:R; cbn [bind fst snd] in H; [|discriminate].
      destruct (reverse_net_ok _ _ _ _ _ _ _ L R) as (L1 & H1 & N1). apply last_home in H1.
      assert (HA' : homes (acc ++ [(n, h)])). { intros p Hp. apply in_app_or in Hp. destruct Hp as [Hp|[<-|[]]]; [auto|exact H1]. }
      destruct (IH _ _ _ _ (L1 : length (f_reverse (mkZfiles _ ts)) = _) HA' H) as (ns & nf & ps & A & B & C & D & E & G & L2 & K2).
      exists (n :: ns), (f ++ [10] ++ nf), ((n, h) :: ps). split; [now constructor|]. split; [now constructor|].
      split; [rewrite C; cbn [f_forward]; now rewrite <- !app_assoc|]. split; [rewrite D, <- app_assoc; reflexivity|]. split; [cbn; now rewrite E|].
      split; [exact G|]. split; [exact L2|]. intros k z t K T. specialize (N1 k z t K T). destruct (zone_has z n) eqn:Z0.
      + destruct N1 as (g & RG & T1). destruct (K2 k z (put t g) K T1) as (u & U & V). eexists. split; [apply nr_in; eauto|]. rewrite V. f_equal.
        unfold put. destruct t as [t|], u as [u|]; cbn; rewrite ?app_nil_r, <- ?app_assoc; reflexivity.
      + destruct (K2 k z t K N1) as (u & U & V). exists u. split; [now apply nr_out|exact V].
  Qed.

  Notation got_ip := (got_ip io other domain).
  Notation adds := (adds io other domain zones).
  Notation adds_all := (adds_all io other domain zones).
  Lemma find_parent : forall ip (ps : list (net * option nat)), match find (fun q => in_net io other (fst q) ip) ps with
    | Some p => In p ps /\ parent_is io other (map fst ps) ip (Some (fst p))
    | None => parent_is io other (map fst ps) ip None
    end.
  Proof.
    induction ps as [|p ps IH]; cbn [find]; [intros m []|]. destruct (in_net io other (fst p) ip) eqn:E.
    - split; [now left|]. exists [], (map fst ps). split; [reflexivity|]. split; [exact E|]. intros m [].
    - destruct (find _ ps) as [q|].
      + destruct IH as [Q (a & b & A & B & C)]. split; [now right|]. exists (fst p :: a), b. split; [cbn; now rewrite A|]. split; [exact B|]. intros m [<-|M]; auto.
      + intros m [<-|M]; [exact E|now apply IH].
  Qed.
  Definition opened (ps : list (net * option nat)) (ts : list (option str)) : Prop :=
    forall n k, In (n, Some k) ps -> exists s, nth_error ts k = Some (Some s).
  Lemma got_ip_ok : forall ps h ip st notes, homes ps -> opened ps (f_reverse st) ->
    exists f r x, adds (map fst ps) h ip f r x /\ let '(st', notes') := got_ip ps h (st, notes) ip in
      f_forward st' = f_forward st ++ f /\ notes' = notes ++ x /\ length (f_reverse st') = length (f_reverse st) /\ opened ps (f_reverse st') /\
      forall k t, nth_error (f_reverse st) k = Some t -> nth_error (f_reverse st') k = Some (match t with Some s => Some (s ++ r k) | None => None end).
  Proof.
    intros ps h ip st notes HP OP. unfold ZonesModel.got_ip. pose proof (find_parent ip ps) as FP.
    assert (SM : forall k t, nth_error (f_reverse st) k = Some t -> nth_error (f_reverse st) k = Some (match t with Some s => Some (s ++ []) | None => None end)).
    { intros k t T. rewrite T. destruct t; [now rewrite app_nil_r|reflexivity]. }
    destruct (find _ ps) as [[n [j|]]|].
    - destruct FP as [IN P]. eexists _, _, _. split; [exact (a_both _ _ _ _ _ h ip n j P (HP _ IN))|]. cbn [f_forward f_reverse].
      destruct (OP n j IN) as (s0 & S0). split; [unfold host_forward; now rewrite <- !app_assoc|]. split; [now rewrite app_nil_r|]. split; [apply put_at_length|]. split.
      + intros m k M. destruct (Nat.eq_dec j k) as [<-|NE].
        * eexists. rewrite (put_at_same _ _ _ _ S0). reflexivity.
        * rewrite put_at_other by assumption. eapply OP; eauto.
      + intros k t T. destruct (Nat.eqb_spec k j) as [->|NE].
        * rewrite (put_at_same _ _ _ _ T). assert (t = Some s0) by congruence. subst t. unfold put, host_reverse. rewrite <- !app_assoc. reflexivity.
        * rewrite put_at_other by congruence. now apply SM.
    - destruct FP as [IN P]. eexists _, _, _. split; [exact (a_forward _ _ _ _ _ h ip n P (HP _ IN))|]. cbn [f_forward f_reverse].
      split; [unfold host_forward; now rewrite <- !app_assoc|]. repeat split; auto.
    - eexists _, _, _. split; [exact (a_lost _ _ _ _ _ h ip FP)|]. rewrite app_nil_r. repeat split; auto.
  Qed.
  Lemma got_all_ok : forall ps l st notes, homes ps -> opened ps (f_reverse st) ->
    exists f r x, adds_all (map fst ps) l f r x /\ let '(st', notes') := fold_left (fun q a => got_ip ps (fst a) q (snd a)) l (st, notes) in
      f_forward st' = f_forward st ++ f /\ notes' = notes ++ x /\ length (f_reverse st') = length (f_reverse st) /\
      forall k t, nth_error (f_reverse st) k = Some t -> nth_error (f_reverse st') k = Some (match t with Some s => Some (s ++ r k) | None => None end).
  Proof.
    induction l as [|[h ip] l IH]; intros st notes HP OP.
    - exists [], (fun _ => []), []. split; [constructor|]. cbn. rewrite !app_nil_r. repeat split; auto. intros k t T. rewrite T. destruct t; [now rewrite app_nil_r|reflexivity].
    - destruct (got_ip_ok ps h ip st notes HP OP) as (f & r & x & A & B). cbn [fold_left fst snd]. destruct (got_ip ps h (st, notes) ip) as [st1 notes1].
      destruct B as (B1 & B2 & B3 & B4 & B5). destruct (IH st1 notes1 HP B4) as (f' & r' & x' & A' & C).
      destruct (fold_left _ l (st1, notes1)) as [st2 notes2]. destruct C as (C1 & C2 & C3 & C5).
      eexists _, _, _. split; [eapply a_cons; eauto|]. rewrite C1, B1, C2, B2, C3, B3, <- !app_assoc. repeat split; auto.
      intros k t T. rewrite (C5 _ _ (B5 _ _ T)). destruct t; [now rewrite <- app_assoc|reflexivity].
  Qed.
  Lemma got_hosts_ok : forall ps es p q, got_hosts lower io other repr domain ps es p = Ok q ->
    exists hs, Forall2 (fun e h => zone_host e = Ok h) es hs /\ q = fold_left (fun q a => got_ip ps (fst a) q (snd a)) (addresses hs) p.
  Proof.
    intros ps. induction es as [|e es IH]; intros p q H; cbn [got_hosts] in H.
    - injection H as <-. exists []. split; [constructor|reflexivity].
    - destruct (zone_host e) as [h|x] eqn:E; cbn [bind] in H; [|discriminate]. destruct (IH _ _ H) as (hs & F & ->). exists (h :: hs). split; [now constructor|].
      unfold addresses. cbn [flat_map]. rewrite fold_left_app. f_equal. generalize (zh_ips h), p. clear. induction l as [|b l IH]; intro p; [reflexivity|]. cbn. apply IH.
  Qed.
  Lemma reverse_some : forall z ns t n, nets_reverse z ns t -> In n ns -> zone_has z n = true -> exists s, t = Some s.
  Proof. intros z ns t n H. induction H; intros I Z0; [destruct I| |eauto]. destruct I as [->|I]; [congruence|auto]. Qed.

  Theorem zones_written : forall nets hosts hosts_end st notes, zones_run lower io other repr domain zones nets hosts hosts_end = Ok (st, notes) ->
    exists es ns hs, nets = Ok es /\ (exists u, hosts_end = Ok u) /\ Forall2 (fun e n => zone_net e = Ok n) es ns /\ Forall2 (fun e h => zone_host e = Ok h) hosts hs /\
      files_ok io other domain zones ns hs st notes.
  Proof.
    intros nets hosts hosts_end st notes H. unfold zones_run in H. destruct nets as [es|x]; cbn [bind] in H; [|discriminate].
    set (st0 := mkZfiles _ _) in H. destruct (got_nets lower io other repr domain zones es st0 []) as [[st1 ps]|x] eqn:G; cbn [bind fst snd] in H; [|discriminate].
    destruct (got_hosts lower io other repr domain ps hosts (st1, [])) as [q|x] eqn:Q; cbn [bind] in H; [|discriminate].
    destruct hosts_end as [u|x]; cbn [bind] in H; [|discriminate]. injection H as ->.
    assert (L0 : length (f_reverse st0) = length zones) by (unfold st0; cbn; apply map_length).
    destruct (got_nets_ok es st0 [] st1 ps L0 (fun p Hp => match Hp with end) G) as (ns & nf & ps' & A & B & C & D & E & HP & L1 & K1). cbn in D. subst ps'.
    destruct (got_hosts_ok _ _ _ _ Q) as (hs & F & EQ).
    assert (R0 : forall k z, nth_error zones k = Some z -> exists t, nets_reverse z ns t /\ nth_error (f_reverse st1) k = Some t).
    { intros k z K. assert (T0 : nth_error (f_reverse st0) k = Some None) by (unfold st0; cbn; now rewrite nth_error_map, K). destruct (K1 k z None K T0) as (t & T & V). exists t. auto. }
    assert (OP : opened ps (f_reverse st1)).
    { intros n k I. destruct (HP _ I) as [(z & K & Z0) _]. destruct (R0 k z K) as (t & T & V).
      assert (IN : In n ns) by (rewrite <- E; apply in_map_iff; exists (n, Some k); auto). destruct (reverse_some _ _ _ _ T IN Z0) as (s & ->). eauto. }
    destruct (got_all_ok ps (addresses hs) st1 [] HP OP) as (f & r & x & AD & M). rewrite <- EQ in M. destruct M as (M1 & M2 & M3 & M4).
    exists es, ns, hs. split; [reflexivity|]. split; [eauto|]. split; [exact A|]. split; [exact F|]. exists nf, f, r. split; [exact B|].
    split; [cbn in M2; subst notes; rewrite <- E; exact AD|]. split; [rewrite M1, C; unfold st0; cbn [f_forward]; now rewrite <- !app_assoc|].
    split; [congruence|]. intros k z K. destruct (R0 k z K) as (t & T & V). exists t. split; [exact T|]. exact (M4 _ _ V).
  Qed.
End Proofs.

(** *** When it runs *)
Lemma reverse_too : forall io other n domain f, net_forward io other n = Ok f -> exists r, net_reverse io other n domain = Ok r.
Proof.
  intros io other n domain f H. unfold net_forward in H. unfold net_reverse.
  destruct (aton io other (n_address n)) as [ip|]; cbn [bind] in *; [|discriminate]. destruct (aton io other (n_mask n)) as [m|]; cbn [bind] in *; [|discriminate].
  destruct (ntoa m); cbn [bind] in H; [|discriminate]. destruct (ntoa (Z.lor ip (Z.lnot m))); cbn [bind] in *; [eauto|discriminate].
Qed.
Lemma reverse_net_runs : forall io other domain n f zs ts k h, net_forward io other n = Ok f -> exists p, reverse_net io other domain n k zs ts h = Ok p.
Proof.
  intros io other domain n f zs. induction zs as [|z zs IH]; intros [|t ts] k h F; cbn [reverse_net]; eauto.
  destruct (reverse_too _ _ _ domain _ F) as (r & R). rewrite R. pose proof F as F'. unfold net_forward in F'.
  destruct (aton io other (n_address n)) as [ip|]; cbn [bind] in *; [|discriminate].
  destruct (IH ts (S k) (Some k) F) as (p & ->). destruct (IH ts (S k) h F) as (q & ->). destruct (_ =? _); cbn [bind]; eauto.
Qed.
Theorem zones_run_runs : forall lower io other repr domain zones es ns hosts hs u,
  Forall2 (fun e n => zone_net lower repr e = Ok n) es ns -> Forall2 (fun e h => zone_host lower repr e = Ok h) hosts hs ->
  (forall n, In n ns -> exists f, net_forward io other n = Ok f) ->
  exists st notes, zones_run lower io other repr domain zones (Ok es) hosts (Ok u) = Ok (st, notes).
Proof.
  intros lower io other repr domain zones es ns hosts hs u A B C. unfold zones_run. cbn [bind].
  assert (G : forall st acc, exists p, got_nets lower io other repr domain zones es st acc = Ok p).
  { clear B. induction A as [|e n es ns E A IH]; intros st acc; cbn [got_nets]; [eauto|]. rewrite E. cbn [bind]. destruct (C n (or_introl eq_refl)) as (f & F). rewrite F. cbn [bind].
    destruct (reverse_net_runs io other domain n f zones (f_reverse st) 0 None F) as (p & ->). cbn [bind]. apply IH. intros m M. apply C. now right. }
  match goal with |- context [got_nets _ _ _ _ _ _ _ ?s ?a] => destruct (G s a) as (p & ->) end. cbn [bind].
  assert (Q : forall q, exists q', got_hosts lower io other repr domain (snd p) hosts q = Ok q').
  { clear A C G. induction B as [|e h hosts hs E B IH]; intro q; cbn [got_hosts]; [eauto|]. rewrite E. cbn [bind]. apply IH. }
  destruct (Q (fst p, [])) as ([st notes] & ->). cbn [bind]. eauto.
Qed.
(** *** One home, one parent *)
Lemma home_unique : forall io other zones n a b, home_is io other zones n a -> home_is io other zones n b -> a = b.
Proof.
  intros io other zones n [k|] [j|] A B; cbn in A, B; [| | |reflexivity].
  - destruct A as [(z & K & Z0) A], B as [(y & J & Y0) B]. destruct (Nat.lt_trichotomy k j) as [L|[->|L]]; [|reflexivity|].
    + rewrite (A j y L J) in Y0. discriminate.
    + rewrite (B k z L K) in Z0. discriminate.
  - destruct A as [(z & K & Z0) _]. rewrite (B k z K) in Z0. discriminate.
  - destruct B as [(z & K & Z0) _]. rewrite (A j z K) in Z0. discriminate.
Qed.
Lemma parent_unique : forall io other ip ns a b, parent_is io other ns ip a -> parent_is io other ns ip b -> a = b.
Proof.
  intros io other ip ns [n|] [m|] A B; cbn in A, B; [| | |reflexivity].
  - destruct A as (a1 & a2 & EA & IA & FA), B as (b1 & b2 & EB & IB & FB). subst ns. revert b1 EB FB. induction a1 as [|x a1 IH]; intros [|y b1] EB FB; cbn in EB; injection EB as E1 E2.
    + congruence.
    + subst y. rewrite (FB n (or_introl eq_refl)) in IA. discriminate.
    + subst x. rewrite (FA m (or_introl eq_refl)) in IB. discriminate.
    + apply (IH (fun q Q => FA q (or_intror Q)) b1 E2). intros q Q. apply FB. now right.
  - destruct A as (a1 & a2 & -> & IA & _). rewrite (B n) in IA; [discriminate|]. apply in_or_app. right. now left.
  - destruct B as (a1 & a2 & -> & IA & _). rewrite (A m) in IA; [discriminate|]. apply in_or_app. right. now left.
Qed.
(** *** The directory *)
Lemma store_all_other : forall zs ts d f, ~ In f (map z_file zs) -> store_all zs ts d f = d f.
Proof.
  induction zs as [|z zs IH]; intros [|[t|] ts] d f N; cbn; auto.
  - cbn in N. rewrite IH by tauto. unfold store. destruct (str_eqb f (z_file z)) eqn:E; [|reflexivity]. apply str_eqb_eq in E. subst. exfalso. apply N. now left.
  - apply IH. cbn in N. tauto.
Qed.
Lemma store_all_in : forall zs ts d k z t, NoDup (map z_file zs) -> nth_error zs k = Some z -> nth_error ts k = Some t ->
  store_all zs ts d (z_file z) = match t with Some s => Some s | None => d (z_file z) end.
Proof.
  induction zs as [|y zs IH]; intros [|u ts] d [|k] z t N K T; try discriminate; cbn in N, K, T; inversion N as [|a b NI ND]; subst.
  - injection K as ->. injection T as ->. cbn. destruct t as [s|]; rewrite store_all_other by assumption; [|reflexivity]. unfold store.
    destruct (str_eqb (z_file z) (z_file z)) eqn:E; [reflexivity|]. exfalso. assert (X : str_eqb (z_file z) (z_file z) = true) by (now apply str_eqb_eq). congruence.
  - assert (NE : str_eqb (z_file z) (z_file y) = false).
    { destruct (str_eqb (z_file z) (z_file y)) eqn:E; [|reflexivity]. apply str_eqb_eq in E. exfalso. apply NI. rewrite <- E. apply in_map. eapply nth_error_In; eauto. }
    cbn. destruct u as [s|]; rewrite (IH ts _ k z t ND K T); [|reflexivity]. destruct t; [reflexivity|]. unfold store. now rewrite NE.
Qed.
