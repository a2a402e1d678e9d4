(** The LDIF tree as a map: histories of additions and deletions. *)
From Verif Require Import Base BaseFacts Utf8Model DnModel DnSpec DnProofs EntryModel LdifModel LdifSpec InmemModel InmemSpec FsModel LdifTreeModel LdifTreeSpec FsProofs LdifTreeProofs LdifTreePlaces.
From Coq Require Import Permutation.

(** ** A store that succeeds *)
Lemma run_put lower oc f (CF : closed f) uuid dd t e w : Forall fname (dd ++ [tmp_name t uuid]) -> Forall fname (dd ++ [t ++ S_ ".ldif"]) ->
  stat f dd = Some Dir -> stat f (dd ++ [tmp_name t uuid]) = None -> stat f (dd ++ [t ++ S_ ".ldif"]) <> Some Dir -> entry_toWire lower oc e = Ok w ->
  let (steps, r) := put_entry lower oc uuid (abs (dd ++ [t])) e in
  exists f', run f steps r = (f', Ok tt) /\ closed f' /\ forall q, stat f' q = if path_eqb (dd ++ [t ++ S_ ".ldif"]) q then Some (File w) else stat f q.
Proof.
  intros Ft Ff D St Sf W. pose proof (fun f' => crash_put lower oc f CF uuid dd t e f' Ft Ff) as CP. rewrite put_entry_abs in *. cbv zeta in *. rewrite W in *. set (tmp := dd ++ [tmp_name t uuid]) in *. set (file := dd ++ [t ++ S_ ".ldif"]) in *.
  assert (Nt : tmp <> []) by (unfold tmp; destruct dd; discriminate). assert (Nf : file <> []) by (unfold file; destruct dd; discriminate).
  assert (Dn : tmp <> dd) by (unfold tmp; intros X; apply (f_equal (@length str)) in X; rewrite app_length in X; cbn in X; lia).
  assert (C1 : create f (abs tmp) = Ok (put_node f tmp (File []))) by (unfold create, tmp; rewrite resolve_child by assumption; cbn [bind]; fold tmp; now rewrite St).
  set (f1 := put_node f tmp (File [])) in *. assert (K1 : closed f1) by (apply closed_put; [exact CF|exact D|intros _; fold tmp; congruence]). assert (D1 : stat f1 dd = Some Dir) by (unfold f1; rewrite stat_put, path_eqb_ne by assumption; exact D).
  assert (S1 : stat f1 tmp = Some (File [])) by (unfold f1; rewrite stat_put, path_eqb_refl by assumption; reflexivity).
  assert (A1 : append f1 (abs tmp) w = Ok (put_node f1 tmp (File w))) by (unfold append, tmp; rewrite resolve_child by assumption; cbn [bind]; fold tmp; now rewrite S1).
  set (f2 := put_node f1 tmp (File w)) in *. assert (K2 : closed f2) by (apply closed_put; [exact K1|exact D1|intros _; fold tmp; congruence]). assert (D2 : stat f2 dd = Some Dir) by (unfold f2; rewrite stat_put, path_eqb_ne by assumption; exact D1).
  assert (S2 : stat f2 tmp = Some (File w)) by (unfold f2; rewrite stat_put, path_eqb_refl by assumption; reflexivity).
  destruct (path_eqb_spec tmp file) as [E|Ntf].
  { exfalso. unfold tmp, file in E. apply app_inj_tail in E as (_ & E). unfold tmp_name in E. apply app_inv_head in E. change (S_ ".ldif") with (S_ "." ++ S_ "ldif") in E. apply app_inv_head in E. apply (f_equal (@rev Z)) in E. rewrite rev_app_distr in E. discriminate. }
  assert (S2f : stat f2 file <> Some Dir) by (unfold f2, f1; rewrite !stat_put, !path_eqb_ne by assumption; exact Sf).
  assert (Rn : exists f3, rename f2 (abs tmp) (abs file) = Ok f3).
  { unfold rename. unfold tmp at 1, file at 1. rewrite !resolve_child by assumption. cbn [bind]. change (dd ++ [tmp_name t uuid]) with tmp. change (dd ++ [t ++ S_ ".ldif"]) with file. rewrite S2. destruct (stat f2 file) as [[b|]|]; [destruct (path_eqb tmp file); eauto|congruence|destruct (path_eqb tmp file); eauto]. }
  destruct Rn as (f3 & Rn). exists f3.
  assert (Run : run f [SCreate (abs tmp); SWrite (abs tmp) w; SRename (abs tmp) (abs file)] (Ok tt) = (f3, Ok tt)) by (cbn [run run_step]; rewrite C1; cbn [run_step]; rewrite A1; cbn [run_step]; now rewrite Rn).
  split; [exact Run|]. destruct (CP f3) as (K3 & H).
  { apply (crash_later _ _ _ f1); [exact C1|]. apply (crash_later _ _ _ f2); [exact A1|]. apply (crash_later _ _ _ f3); [exact Rn|]. constructor. }
  split; [exact K3|]. unfold rename, tmp, file in Rn. rewrite !resolve_child in Rn by assumption. cbn [bind] in Rn. change (dd ++ [tmp_name t uuid]) with tmp in Rn. change (dd ++ [t ++ S_ ".ldif"]) with file in Rn. rewrite S2, (path_eqb_ne tmp file Ntf) in Rn.
  assert (Ef : f3 = put_node (drop_node f2 tmp) file (File w)) by (destruct (stat f2 file) as [[b|]|]; congruence). intros q. rewrite Ef, stat_put by assumption. destruct (path_eqb_spec file q) as [|N1]; [reflexivity|]. rewrite stat_drop by assumption. destruct (path_eqb_spec tmp q) as [<-|N2]; [now rewrite St|].
  unfold f2, f1. rewrite !stat_put, !path_eqb_ne by assumption. reflexivity.
Qed.

Section Map.
  Variable lower : str -> str.
  Variable io : Z -> Z -> res Z.
  Variable vio : str -> res Z.
  Variable oc : bool.
  Variable order : list str -> list str.
  Variable R : path.
  Variable C : rdn -> Prop.
  Hypothesis TR : tree_root R.
  Hypothesis LOC : lower_oc lower.
  Hypothesis ORD : forall l, Permutation l (order l).
  Hypothesis CP : forall r, C r -> plain_rdn r.
  Hypothesis CC : consistent lower C.

  Lemma C_eq a b : C a -> C b -> (rdn_eqb lower a b = true <-> a = b).
  Proof. intros A B. rewrite (CC a b A B). split; [apply (rdn_text_inj io); auto|now intros ->]. Qed.
  Lemma plainC d : Forall C d -> plain d. Proof. apply Forall_impl. exact CP. Qed.
  Lemma dn_eq a b : Forall C a -> Forall C b -> (dn_eqb lower a b = true <-> a = b).
  Proof.
    intros A B. rewrite dn_eqb_spec. split.
    - intros S. induction S as [|x y l m S1 S2 IH]; [reflexivity|]. inversion A; inversion B; subst. f_equal; [|now apply IH]. apply C_eq; try assumption. now apply rdn_eqb_spec.
    - intros E. rewrite E. exact (proj1 (same_dn_equiv lower) b).
  Qed.
  Lemma dn_eq_false a b : Forall C a -> Forall C b -> a <> b -> dn_eqb lower a b = false.
  Proof. intros A B N. destruct (dn_eqb lower a b) eqn:E; [|reflexivity]. now apply dn_eq in E. Qed.
  Definition mem (d : dn) (M : dir) : Prop := exists a, In (d, a) M.
  Lemma dirs_inj a b : plain a -> plain b -> dirs_of a = dirs_of b -> a = b.
  Proof.
    revert b. induction a as [|r a IH]; intros [|s b] Pa Pb; rewrite ?dirs_cons; [reflexivity|unfold dirs_of; cbn; intros E; destruct (map _ (rev b)); discriminate|unfold dirs_of; cbn; intros E; destruct (map _ (rev a)); discriminate|].
    intros E. apply app_inj_tail in E as (E1 & E2). unfold dir_name in E2. apply app_inv_tail in E2. inversion Pa; inversion Pb; subst. f_equal; [now apply (rdn_text_inj io)|now apply IH].
  Qed.
  Lemma dir_ldif a b : dir_name a <> ldif_name b.
  Proof. unfold dir_name, ldif_name. intros X. change (S_ ".ldif") with (S_ "." ++ S_ "ldif") in X. rewrite app_assoc in X. apply ends_differ in X; [discriminate|reflexivity]. Qed.
  Lemma tmp_dir t u a : tmp_name t u <> dir_name a.
  Proof. unfold tmp_name, dir_name. rewrite !app_assoc. intros X. apply ends_differ in X; [discriminate|reflexivity]. Qed.
  Lemma tmp_ldif t u a : tmp_name t u <> ldif_name a.
  Proof. unfold tmp_name, ldif_name. change (S_ ".ldif") with (S_ "." ++ S_ "ldif"). rewrite !app_assoc. intros X. apply ends_differ in X; [discriminate|reflexivity]. Qed.

  Record Inv (f : fs) (M : dir) (had : list dn) : Prop := {
    i_closed : closed f;
    i_root : stat f R = Some Dir;
    i_C : forall d a, In (d, a) M -> Forall C d;
    i_file : forall r d a, In (r :: d, a) M -> exists w e', stat f (R ++ file_of (r :: d)) = Some (File w) /\ parse_file lower io vio w = Ok e' /\ same_entry (new_entry lower (r :: d) a) e';
    i_nofile : forall r d, Forall C (r :: d) -> ~ mem (r :: d) M -> stat f (R ++ file_of (r :: d)) = None;
    i_dir : forall d, Forall C d -> stat f (R ++ dirs_of d) <> None -> stat f (R ++ dirs_of d) = Some Dir /\ mem d M /\ (d = [] \/ In d had);
    i_names : forall d n, Forall C d -> stat f (R ++ dirs_of d ++ [n]) <> None -> exists r, C r /\ (n = dir_name r \/ n = ldif_name r);
    i_top : In ([], []) M;
    i_top1 : forall a, In ([], a) M -> a = [] }.

  Lemma mem_at M d : (forall x a, In (x, a) M -> Forall C x) -> Forall C d -> (existsb (at_dn lower d) M = true <-> mem d M).
  Proof.
    intros HM Fd. rewrite existsb_exists. unfold at_dn. split.
    - intros ((x & a) & I & E). cbn [fst] in E. apply dn_eq in E; [|exact (HM x a I)|exact Fd]. subst x. now exists a.
    - intros (a & I). exists (d, a). split; [exact I|]. now apply dn_eq.
  Qed.
  Lemma inv_up f M had r d : Inv f M had -> mem (r :: d) M -> mem d M /\ stat f (R ++ dirs_of d) = Some Dir.
  Proof.
    intros V (a & I). destruct (i_file _ _ _ V _ _ _ I) as (w & e' & S & _). cbn [file_of] in S. rewrite app_assoc in S. assert (D : stat f (R ++ dirs_of d) = Some Dir) by (apply (i_closed _ _ _ V) with (n := rdn_text r ++ S_ ".ldif"); intros Q; pose proof (eq_trans (eq_sym S) Q); discriminate).
    split; [|exact D]. apply (i_dir _ _ _ V); [|congruence]. pose proof (i_C _ _ _ V _ _ I) as F. now inversion F.
  Qed.
  Lemma inv_suffix f M had l d : Inv f M had -> mem (l ++ d) M -> mem d M.
  Proof. intros V. induction l as [|r l IH]; [auto|]. intros H. apply IH. now apply (inv_up f M had r). Qed.

  (** An entry that has been read *)
  Definition opened (f : fs) (t : lent) (d : dn) : Prop :=
    t_dn t = d /\ t_path t = abs (R ++ dirs_of d) /\
    match d with
    | [] => e_attrs (t_entry t) = []
    | _ => exists w e', stat f (R ++ file_of d) = Some (File w) /\ parse_file lower io vio w = Ok e' /\ e_attrs (t_entry t) = e_attrs e'
    end.
  Lemma dn_text_ne r d : plain (r :: d) -> str_eqb (dn_text (r :: d)) [] = false.
  Proof.
    intros P. inversion P as [|? ? Pr _]; subst. pose proof (rdn_text_eqsign r (proj1 Pr)) as I. destruct (str_eqb_spec (dn_text (r :: d)) []) as [E|]; [|reflexivity]. exfalso. unfold dn_text in E. cbn [map join] in E. destruct (map rdn_text d); [rewrite E in I; destruct I|]. apply app_eq_nil in E as (E & _). rewrite E in I. destruct I.
  Qed.
  Lemma open_ok f (CF : closed f) r d w e' : plain (r :: d) -> stat f (R ++ file_of (r :: d)) = Some (File w) -> parse_file lower io vio w = Ok e' ->
    open_entry lower io vio f (abs (R ++ dirs_of (r :: d))) (r :: d) = Ok (mkLent (abs (R ++ dirs_of (r :: d))) (mkEntry (r :: d) (e_attrs e'))).
  Proof.
    intros P S E. unfold open_entry. rewrite dn_text_ne by exact P. unfold load. rewrite dirs_cons, app_assoc. unfold dir_name. rewrite <- abs_ext, endswith_app, chop_app. cbn [negb]. rewrite !abs_ext. inversion P as [|? ? Pr Pd]; subst.
    destruct (root_app R TR _ (fname_file _ P)) as (N & F). pose proof (read_abs f CF _ F N) as Rd. rewrite S in Rd. cbn [file_of] in Rd. rewrite app_assoc in Rd. rewrite Rd, E. reflexivity.
  Qed.
  Lemma open_mem f M had r d : Inv f M had -> mem (r :: d) M -> exists t, open_entry lower io vio f (abs (R ++ dirs_of (r :: d))) (r :: d) = Ok t /\ opened f t (r :: d).
  Proof.
    intros V (a & I). destruct (i_file _ _ _ V _ _ _ I) as (w & e' & S & P & _). pose proof (plainC _ (i_C _ _ _ V _ _ I)) as Pl. eexists. split; [exact (open_ok f (i_closed _ _ _ V) r d w e' Pl S P)|]. split; [reflexivity|]. split; [reflexivity|]. exists w, e'. auto.
  Qed.

  Lemma lookup_spec f M had (V : Inv f M had) : forall depth pre s t, Forall C (pre ++ s) -> opened f t s -> mem s M -> (length pre < depth)%nat ->
    (mem (pre ++ s) M -> exists t', t_lookup lower io vio depth f t (pre ++ s) = Ok t' /\ opened f t' (pre ++ s)) /\
    (~ mem (pre ++ s) M -> t_lookup lower io vio depth f t (pre ++ s) = Err ENoSuchObject).
  Proof.
    induction depth as [|k IH]; intros pre s t F O Ms L; [lia|]. pose proof F as F0. apply Forall_app in F0 as (Fp & Fs). cbn [t_lookup]. destruct O as (Ed & Ep & Ea). rewrite Ed.
    assert (Ct : contains lower s (pre ++ s) = true) by (apply contains_spec; exists pre, s; split; [reflexivity|]; apply dn_eqb_spec, dn_eq; auto). rewrite Ct. cbn [negb]. destruct pre as [|r pre _] using rev_ind.
    - cbn [app] in *. rewrite (proj2 (dn_eq s s Fs Fs) eq_refl). split; [|congruence]. intros _. exists t. split; [reflexivity|]. split; auto.
    - rewrite dn_eq_false; [|exact F|exact Fs|]. 2:{ intros X. apply (f_equal (@length rdn)) in X. rewrite !app_length in X. cbn in X. lia. }
      assert (Hn : nth_error ((pre ++ [r]) ++ s) (length ((pre ++ [r]) ++ s) - length s - 1) = Some r).
      { rewrite !app_length. cbn [length]. replace (length pre + 1 + length s - length s - 1)%nat with (length pre) by lia. rewrite <- app_assoc. rewrite nth_error_app2 by lia. now rewrite Nat.sub_diag. }
      rewrite Hn. apply Forall_app in Fp as (Fp & Fr). pose proof (Forall_inv Fr) as Cr. pose proof (plainC s Fs) as Ps. destruct (root_app R TR _ (fname_dirs s Ps)) as (N & FR). rewrite Ep, !pjoin_abs by (try assumption; first [now apply fname_dir, CP|now apply fname_ldif, CP]). rewrite <- !app_assoc, <- dirs_cons.
      assert (Frs : Forall C (r :: s)) by (constructor; assumption). pose proof (plainC _ Frs) as Prs. change (dirs_of (s) ++ [ldif_name r]) with (file_of (r :: s)). pose proof (i_closed _ _ _ V) as CF. destruct (root_app R TR _ (fname_dirs _ Prs)) as (N1 & F1). destruct (root_app R TR _ (fname_file _ Prs)) as (N2 & F2).
      unfold isdir, isfile. rewrite !(look_abs f CF) by assumption. cbn [app]. rewrite <- app_assoc in F. cbn [app] in F. rewrite app_length in L. cbn [length] in L.
      destruct (existsb (at_dn lower (r :: s)) M) eqn:X.
      + apply mem_at in X; [|exact (i_C _ _ _ V)|exact Frs]. pose proof X as (a & I). destruct (i_file _ _ _ V _ _ _ I) as (w & e' & S & _). rewrite S. rewrite Bool.andb_false_r. destruct (open_mem f M had r _ V X) as (c & Oc & Hc). rewrite Oc. cbn [bind]. apply IH; [exact F|exact Hc|exact X|lia].
      + assert (NX : ~ mem (r :: s) M) by (intros H; apply (mem_at M _ (i_C _ _ _ V) Frs) in H; congruence). rewrite (i_nofile _ _ _ V _ _ Frs NX). assert (Nd : stat f (R ++ dirs_of (r :: s)) = None) by (destruct (stat f (R ++ dirs_of (r :: s))) eqn:Q; [|reflexivity]; destruct NX; apply (i_dir _ _ _ V _ Frs); congruence). rewrite Nd. cbn [negb andb].
        split; [|reflexivity]. intros H. destruct NX. exact (inv_suffix f M had pre _ V H).
  Qed.
  Lemma root_opened f : opened f (t_root R) [].
  Proof. split; [reflexivity|]. split; [cbn [t_root t_path dirs_of rev map]; now rewrite app_nil_r|reflexivity]. Qed.
  Lemma lookup_root f M had depth d (V : Inv f M had) : Forall C d -> (length d < depth)%nat ->
    (mem d M -> exists t', t_lookup lower io vio depth f (t_root R) d = Ok t' /\ opened f t' d) /\ (~ mem d M -> t_lookup lower io vio depth f (t_root R) d = Err ENoSuchObject).
  Proof. intros F L. pose proof (lookup_spec f M had V depth d [] (t_root R)) as H. rewrite app_nil_r in H. apply H; [exact F|apply root_opened|exists []; apply (i_top _ _ _ V)|exact L]. Qed.

  (** ** Children *)
  Lemma splitext_dir r : plain_rdn r -> splitext (dir_name r) = (rdn_text r, S_ ".dir").
  Proof.
    intros P. pose proof (rdn_text_part r P) as (T1 & _). apply (splitext_name (rdn_text r) (S_ "dir")); [intros J; apply in_app_iff in J as [J|J]; [exact (T1 J)|revert J; apply (part_lit (S_ ".dir")); reflexivity]|apply rdn_text_eqsign, P|intros J; repeat destruct J as [J|J]; try discriminate J; contradiction].
  Qed.
  Lemma splitext_ldif r : plain_rdn r -> splitext (ldif_name r) = (rdn_text r, S_ ".ldif").
  Proof.
    intros P. pose proof (rdn_text_part r P) as (T1 & _). apply (splitext_name (rdn_text r) (S_ "ldif")); [intros J; apply in_app_iff in J as [J|J]; [exact (T1 J)|revert J; apply (part_lit (S_ ".ldif")); reflexivity]|apply rdn_text_eqsign, P|intros J; repeat destruct J as [J|J]; try discriminate J; contradiction].
  Qed.
  Definition listed (r : rdn) (names : list str) : Prop := In (dir_name r) names \/ In (ldif_name r) names.
  Lemma loop_spec f M had (V : Inv f M had) t d : opened f t d -> Forall C d -> forall names seen, (forall n, In n names -> exists r, C r /\ (n = dir_name r \/ n = ldif_name r) /\ mem (r :: d) M) ->
    exists cs, children_loop lower io vio f t seen names = Ok cs /\
      (forall r, C r -> (existsb (has_rdn lower r) cs = true <-> ~ In (rdn_text r) seen /\ listed r names)).
  Proof.
    intros (Ed & Ep & _) Fd. induction names as [|n names IH]; intros seen Hn; cbn [children_loop].
    { exists []. split; [reflexivity|]. intros r _. cbn [existsb]. unfold listed. cbn [In]. split; [discriminate|intuition]. }
    destruct (Hn n (or_introl eq_refl)) as (r & Cr & En & Mr). pose proof (CP r Cr) as Pr.
    assert (Sp : exists ext, splitext n = (rdn_text r, ext) /\ (ext = S_ ".dir" \/ ext = S_ ".ldif")) by (destruct En as [->| ->]; eexists; (split; [first [now apply splitext_dir|now apply splitext_ldif]|auto])). destruct Sp as (ext & Sp & Ext). rewrite Sp.
    assert (X : negb (str_eqb ext (S_ ".dir") || str_eqb ext (S_ ".ldif")) = false) by (destruct Ext as [->| ->]; reflexivity). rewrite X. clear X.
    assert (Own : forall r', C r' -> (dir_name r' = n \/ ldif_name r' = n) -> r' = r).
    { intros r' Cr' H. apply (rdn_text_inj io); [now apply CP|exact Pr|]. destruct En as [->| ->], H as [H|H]; try (now apply app_inv_tail in H); exfalso; [symmetry in H|]; exact (dir_ldif _ _ H). }
    assert (Hns : forall n', In n' names -> exists r, C r /\ (n' = dir_name r \/ n' = ldif_name r) /\ mem (r :: d) M) by (intros n' I; apply Hn; now right).
    assert (Lc : forall r', C r' -> r' <> r -> (listed r' (n :: names) <-> listed r' names)) by (intros r' Cr' N; unfold listed; cbn [In]; split; [|tauto]; intros [[H|H]|[H|H]]; auto; destruct N; apply Own; auto).
    assert (Lr : listed r (n :: names)) by (destruct En as [->| ->]; [left|right]; now left).
    destruct (existsb (str_eqb (rdn_text r)) seen) eqn:Se.
    - destruct (IH seen Hns) as (cs & E & H). exists cs. split; [exact E|]. apply existsb_exists in Se as (x & Ix & Ex). destruct (str_eqb_spec (rdn_text r) x) as [Ex'|]; [|discriminate]. intros r' Cr'. rewrite (H r' Cr').
      destruct (str_eqb_spec (rdn_text r') (rdn_text r)) as [Et|Et]; [rewrite Et, Ex'; tauto|]. rewrite Lc; [tauto|exact Cr'|congruence].
    - assert (Ns : ~ In (rdn_text r) seen) by (intros I; assert (Q : existsb (str_eqb (rdn_text r)) seen = true) by (apply existsb_exists; exists (rdn_text r); split; [exact I|apply str_eqb_refl]); congruence).
      rewrite (parse_rdn_text io r) by apply Pr. cbn [bind]. rewrite Ed, Ep. destruct (root_app R TR _ (fname_dirs d (plainC d Fd))) as (N & FR). change (rdn_text r ++ S_ ".dir") with (dir_name r). rewrite pjoin_abs by (try assumption; now apply fname_dir). rewrite <- app_assoc, <- dirs_cons.
      destruct (open_mem f M had r d V Mr) as (c & Oc & (Dc & _)). rewrite Oc. cbn [bind]. destruct (IH (rdn_text r :: seen) Hns) as (cs & E & H). rewrite E. cbn [bind]. exists (c :: cs). split; [reflexivity|]. intros r' Cr'. cbn [existsb]. unfold has_rdn at 1. rewrite Dc. rewrite orb_true_iff, (C_eq r r' Cr Cr'), (H r' Cr').
      destruct (str_eqb_spec (rdn_text r') (rdn_text r)) as [Et|Et].
      + apply (rdn_text_inj io) in Et; [|now apply CP|exact Pr]. subst r'. tauto.
      + assert (N' : r' <> r) by congruence. rewrite Lc by assumption. cbn [In]. split; [intros [->|(A & B)]; [congruence|tauto]|]. intros (A & B). right. split; [|exact B]. intros [Q|Q]; [congruence|tauto].
  Qed.
  Lemma sync_spec f M had (V : Inv f M had) t d : opened f t d -> mem d M -> Forall C d ->
    exists cs, sync_children lower io vio order f t = Ok cs /\ (forall r, C r -> (existsb (has_rdn lower r) cs = true <-> mem (r :: d) M)) /\ (cs <> [] -> exists r, C r /\ mem (r :: d) M).
  Proof.
    intros O Md Fd. pose proof O as (Ed & Ep & _). pose proof (i_closed _ _ _ V) as CF. unfold sync_children. rewrite Ep. destruct (root_app R TR _ (fname_dirs d (plainC d Fd))) as (N & FR).
    assert (Rs : resolve f (abs (R ++ dirs_of d)) = Ok (R ++ dirs_of d)).
    { destruct d as [|r d]; [cbn [dirs_of rev map] in *; rewrite app_nil_r in *; rewrite resolve_abs by assumption; apply walk_there; [exact CF|exact FR|rewrite (i_root _ _ _ V); discriminate]|]. rewrite dirs_cons, app_assoc in *. apply resolve_child; [exact CF|exact FR|]. now apply (inv_up f M had r d V). }
    unfold listdir. rewrite Rs. cbn [bind]. destruct (stat f (R ++ dirs_of d)) as [nd|] eqn:S.
    - destruct (i_dir _ _ _ V d Fd ltac:(congruence)) as (S' & _). rewrite S in S'. assert (End : nd = Dir) by congruence. subst nd.
      assert (Hn : forall n, In n (order (names_in f (R ++ dirs_of d))) -> exists r, C r /\ (n = dir_name r \/ n = ldif_name r) /\ mem (r :: d) M).
      { intros n I. apply (Permutation_in _ (Permutation_sym (ORD _))) in I. apply names_in_spec in I. rewrite <- app_assoc in I. destruct (i_names _ _ _ V d n Fd I) as (r & Cr & En). exists r. split; [exact Cr|]. split; [exact En|]. assert (Fr : Forall C (r :: d)) by (now constructor).
        destruct En as [->| ->]; [rewrite <- dirs_cons in I; now apply (i_dir _ _ _ V _ Fr)|]. destruct (existsb (at_dn lower (r :: d)) M) eqn:X; [apply mem_at in X; [exact X|exact (i_C _ _ _ V)|exact Fr]|]. destruct I. apply (i_nofile _ _ _ V r d Fr). intros H. apply (mem_at M _ (i_C _ _ _ V) Fr) in H. congruence. }
      destruct (loop_spec f M had V t d O Fd _ [] Hn) as (cs & E & H). exists cs. split; [exact E|]. split.
      + intros r Cr. rewrite (H r Cr). split.
        * intros (_ & [I|I]); destruct (Hn _ I) as (r' & Cr' & En & Mr); (destruct En as [En|En]; [|]); try (exfalso; first [exact (dir_ldif _ _ En)|exact (dir_ldif _ _ (eq_sym En))]); apply app_inv_tail in En; apply (rdn_text_inj io) in En; auto; now subst.
        * intros Mr. split; [intros []|]. right. apply (Permutation_in _ (ORD _)). apply names_in_spec. destruct Mr as (a & I). destruct (i_file _ _ _ V _ _ _ I) as (w & e' & Sf & _). cbn [file_of] in Sf. rewrite <- app_assoc. change (dirs_of d ++ [ldif_name r]) with (dirs_of d ++ [rdn_text r ++ S_ ".ldif"]). congruence.
      + intros Nc. destruct (order (names_in f (R ++ dirs_of d))) as [|n l]; [cbn in E; congruence|]. destruct (Hn n (or_introl eq_refl)) as (r & Cr & _ & Mr). eauto.
    - exists []. split; [reflexivity|]. split; [|congruence]. intros r Cr. cbn [existsb]. split; [discriminate|]. intros Mr. destruct (inv_up f M had r d V Mr). congruence.
  Qed.

  (** ** One request *)
  Lemma find_mem M d : (forall x a, In (x, a) M -> Forall C x) -> Forall C d -> match find (at_dn lower d) M with Some (p, a) => p = d /\ In (d, a) M | None => ~ mem d M end.
  Proof.
    intros HM Fd. destruct (find (at_dn lower d) M) as [(p & a)|] eqn:E.
    - apply find_some in E as (I & E). unfold at_dn in E. cbn [fst] in E. apply dn_eq in E; [|exact (HM p a I)|exact Fd]. subst p. auto.
    - intros (a & I). pose proof (find_none _ _ E (d, a) I) as H. unfold at_dn in H. cbn [fst] in H. rewrite (proj2 (dn_eq d d Fd Fd) eq_refl) in H. discriminate.
  Qed.
  Lemma path_len_ne (p q : path) : length p <> length q -> p <> q. Proof. intros H ->. now apply H. Qed.
  Lemma tree_path_cases d rd p : plain d -> plain (rd :: p) -> R ++ dirs_of d <> R ++ file_of (rd :: p).
  Proof.
    intros Pd P E. apply app_inv_head in E. cbn [file_of] in E. destruct d as [|r d]; [unfold dirs_of in E at 1; cbn in E; destruct (dirs_of p); discriminate|]. rewrite dirs_cons in E. apply app_inj_tail in E as (_ & E). exact (dir_ldif _ _ E).
  Qed.

  Lemma add_spec f M had depth u parent rd a (V : Inv f M had) : tree_hop_ok lower oc C depth u (HAdd parent rd a) ->
    let (f', o) := tree_hop lower io vio oc order R depth u (HAdd parent rd a) f in
    o = snd (spec_hop lower [] (HAdd parent rd a) M) /\ Inv f' (fst (spec_hop lower [] (HAdd parent rd a) M)) (parent :: had).
  Proof.
    intros (U & F & L & Sto). inversion F as [|? ? Cr Fp]; subst. cbn [tree_hop spec_hop]. pose proof (find_mem M parent (i_C _ _ _ V) Fp) as Fm.
    assert (V' : Inv f M (parent :: had)) by (destruct V; constructor; auto; intros d Fd S; destruct (i_dir0 d Fd S) as (A & B & [X|X]); cbn [In]; auto).
    destruct (lookup_root f M had depth parent V Fp L) as (L1 & L2). destruct (find (at_dn lower parent) M) as [(p & pa)|]; [|rewrite (L2 Fm); split; [reflexivity|exact V']]. destruct Fm as (-> & Ip). assert (Mp : mem parent M) by (now exists pa). destruct (L1 Mp) as (t & -> & O).
    destruct (sync_spec f M had V t parent O Mp Fp) as (cs & Sy & Kids & _). specialize (Kids rd Cr). pose proof (mem_at M (rd :: parent) (i_C _ _ _ V) F) as Me. unfold t_add_child, add_child_steps. rewrite Sy.
    assert (X : existsb (has_rdn lower rd) cs = existsb (at_dn lower (rd :: parent)) M) by (apply Bool.eq_true_iff_eq; now rewrite Kids, Me). rewrite X. clear X. destruct (existsb (at_dn lower (rd :: parent)) M) eqn:X; [cbn [run bind fst snd]; split; [reflexivity|exact V']|].
    assert (NM : ~ mem (rd :: parent) M) by (intros H; apply Me in H; discriminate). cbv zeta. destruct O as (Ed & Ep & _). rewrite Ed, Ep. pose proof (plainC _ F) as Pl. pose proof (plainC _ Fp) as Pp. pose proof (CP rd Cr) as Pr. destruct (root_app R TR _ (fname_dirs parent Pp)) as (N & FR).
    rewrite !pjoin_abs by (try assumption; first [now apply fname_dir|now apply fname_rdn]). destruct (storable_reads lower io vio oc LOC _ Sto) as (w & e' & W & Pw & Se). pose proof (i_closed _ _ _ V) as CF.
    assert (F1 : Forall fname ((R ++ dirs_of parent) ++ [tmp_name (rdn_text rd) u])) by (apply Forall_app; split; [exact FR|]; constructor; [|constructor]; apply fname_text; [exact Pr|]; apply part_app; [now apply part_lit|]; apply part_app; [exact U|now apply part_lit]).
    assert (F2 : Forall fname ((R ++ dirs_of parent) ++ [rdn_text rd ++ S_ ".ldif"])) by (rewrite <- app_assoc; apply root_app; [exact TR|exact (fname_file _ Pl)]).
    (* the directory of the parent *)
    assert (G : exists g steps0, (if exists_ f (abs (R ++ dirs_of parent)) then [] else [SMkdir (abs (R ++ dirs_of parent))]) = steps0 /\ (forall l (r : res unit), run f (steps0 ++ l) r = run g l r) /\ closed g /\
       forall q, stat g q = if path_eqb (R ++ dirs_of parent) q then Some Dir else stat f q).
    { unfold exists_. rewrite (look_abs f CF) by assumption. destruct (stat f (R ++ dirs_of parent)) as [nd|] eqn:S.
      - exists f, []. split; [reflexivity|]. split; [reflexivity|]. split; [exact CF|]. intros q. destruct (path_eqb_spec (R ++ dirs_of parent) q) as [<-|]; [|reflexivity]. apply (i_dir _ _ _ V); [exact Fp|congruence].
      - destruct parent as [|p0 p]; [cbn [dirs_of rev map] in S; rewrite app_nil_r, (i_root _ _ _ V) in S; discriminate|]. destruct (inv_up f M had p0 p V Mp) as (_ & D). rewrite dirs_cons, app_assoc in *. set (pd := (R ++ dirs_of p) ++ [dir_name p0]) in *. assert (Npd : pd <> []) by (unfold pd; destruct (R ++ dirs_of p); discriminate).
        exists (put_node f pd Dir), [SMkdir (abs pd)]. split; [reflexivity|]. assert (Mk : mkdir f (abs pd) = Ok (put_node f pd Dir)) by (unfold mkdir, pd; rewrite resolve_child by assumption; cbn [bind]; fold pd; now rewrite S).
        split; [intros l r; cbn [app run run_step]; now rewrite Mk|]. split; [apply closed_put; [exact CF|exact D|congruence]|]. intros q. now apply stat_put. }
    destruct G as (g & steps0 & Es & Rg & Cg & Sg). set (e := new_entry lower (rd :: parent) a) in *.
    assert (Sgd : stat g (R ++ dirs_of parent) = Some Dir) by (now rewrite Sg, path_eqb_refl).
    assert (Sgn : forall n, stat g ((R ++ dirs_of parent) ++ [n]) = stat f (R ++ dirs_of parent ++ [n])).
    { intros n. rewrite Sg, <- app_assoc. rewrite path_eqb_ne; [reflexivity|]. apply path_len_ne. rewrite !app_length. cbn. lia. }
    assert (St : stat g ((R ++ dirs_of parent) ++ [tmp_name (rdn_text rd) u]) = None).
    { rewrite Sgn. destruct (stat f (R ++ dirs_of parent ++ [tmp_name (rdn_text rd) u])) eqn:Q; [|reflexivity]. destruct (i_names _ _ _ V parent (tmp_name (rdn_text rd) u) Fp ltac:(congruence)) as (r & _ & [E|E]); exfalso; [exact (tmp_dir _ _ _ E)|exact (tmp_ldif _ _ _ E)]. }
    assert (Sf : stat g ((R ++ dirs_of parent) ++ [rdn_text rd ++ S_ ".ldif"]) = None) by (rewrite Sgn; exact (i_nofile _ _ _ V rd parent F NM)).
    pose proof (run_put lower oc g Cg u (R ++ dirs_of parent) (rdn_text rd) e w F1 F2 Sgd St ltac:(congruence) W) as Rp. destruct (put_entry lower oc u _ e) as (s & r). destruct Rp as (f' & Run & C' & S').
    assert (Er : run f (if exists_ f (abs (R ++ dirs_of parent)) then s else SMkdir (abs (R ++ dirs_of parent)) :: s) r = (f', Ok tt)).
    { rewrite <- Run, <- Rg, <- Es. destruct (exists_ f (abs (R ++ dirs_of parent))); reflexivity. }
    rewrite Er. cbn [bind]. rewrite <- app_assoc, <- dirs_cons. rewrite <- app_assoc in S'. change (dirs_of parent ++ [rdn_text rd ++ S_ ".ldif"]) with (file_of (rd :: parent)) in S'. set (file := R ++ file_of (rd :: parent)) in *.
    assert (Sfile : stat f' file = Some (File w)) by (now rewrite S', path_eqb_refl). rewrite (open_ok f' C' rd parent w e' Pl Sfile Pw). cbn [bind fst snd]. split; [reflexivity|].
    assert (Sq : forall q, stat f' q = if path_eqb file q then Some (File w) else if path_eqb (R ++ dirs_of parent) q then Some Dir else stat f q) by (intros q; now rewrite S', Sg).
    constructor.
    - exact C'.
    - rewrite Sq. rewrite path_eqb_ne; [|unfold file; apply path_len_ne; rewrite app_length; cbn [file_of]; rewrite app_length; cbn; lia]. destruct (path_eqb (R ++ dirs_of parent) R); [reflexivity|apply (i_root _ _ _ V)].
    - intros d x I. apply in_app_iff in I as [I|[[= <- <-]|[]]]; [exact (i_C _ _ _ V d x I)|exact F].
    - intros r0 d x I. apply in_app_iff in I as [I|[[= <- <- <-]|[]]].
      + destruct (i_file _ _ _ V _ _ _ I) as (w0 & e0 & S0 & P0 & E0). exists w0, e0. split; [|auto]. pose proof (i_C _ _ _ V _ _ I) as F0. rewrite Sq. rewrite path_eqb_ne; [rewrite path_eqb_ne; [exact S0|]|].
        * apply tree_path_cases; [exact Pp|now apply plainC].
        * unfold file. intros Q. apply app_inv_head in Q. apply file_of_inj in Q; [|exact io|exact Pl|now apply plainC|discriminate]. apply NM. rewrite Q. now exists x.
      + exists w, e'. auto.
    - intros r0 d F0 N0. rewrite Sq. assert (Nn : rd :: parent <> r0 :: d) by (intros Q; apply N0; rewrite <- Q; exists a; apply in_or_app; right; now left). rewrite path_eqb_ne; [rewrite path_eqb_ne; [|apply tree_path_cases; [exact Pp|now apply plainC]]|].
      + apply (i_nofile _ _ _ V r0 d F0). intros (x & I). apply N0. exists x. apply in_or_app. now left.
      + unfold file. intros Q. apply app_inv_head in Q. apply file_of_inj in Q; [auto|exact io|exact Pl|now apply plainC|discriminate].
    - intros d Fd. rewrite Sq. rewrite path_eqb_ne by (intros Q; symmetry in Q; revert Q; apply tree_path_cases; [now apply plainC|exact Pl]). destruct (path_eqb_spec (R ++ dirs_of parent) (R ++ dirs_of d)) as [Q|Q].
      + intros _. apply app_inv_head in Q. apply dirs_inj in Q; [|exact Pp|now apply plainC]. subst d. split; [reflexivity|]. split; [destruct Mp as (x & I); exists x; apply in_or_app; now left|]. right. now left.
      + intros S0. destruct (i_dir _ _ _ V d Fd S0) as (A & (x & B) & Hh). split; [exact A|]. split; [exists x; apply in_or_app; now left|]. cbn [In]. tauto.
    - intros d n Fd. rewrite Sq. destruct (path_eqb_spec file (R ++ dirs_of d ++ [n])) as [Q|Q].
      + intros _. unfold file in Q. apply app_inv_head in Q. cbn [file_of] in Q. apply app_inj_tail in Q as (_ & <-). exists rd. split; [exact Cr|now right].
      + destruct (path_eqb_spec (R ++ dirs_of parent) (R ++ dirs_of d ++ [n])) as [Q2|Q2]; [|apply (i_names _ _ _ V d n Fd)]. intros _. apply app_inv_head in Q2. destruct parent as [|p0 p]; [cbn [dirs_of rev map] in Q2; destruct (dirs_of d); discriminate|]. rewrite dirs_cons in Q2. apply app_inj_tail in Q2 as (_ & <-). exists p0. split; [now inversion Fp|now left].
    - apply in_or_app. left. apply (i_top _ _ _ V).
    - intros x I. apply in_app_iff in I as [I|[Q|[]]]; [exact (i_top1 _ _ _ V x I)|discriminate].
  Qed.

  Lemma delete_spec f M had depth u d (V : Inv f M had) : tree_hop_ok lower oc C depth u (HDelete d) -> (snd (spec_hop lower [] (HDelete d) M) = Ok tt -> ~ In d had) ->
    let (f', o) := tree_hop lower io vio oc order R depth u (HDelete d) f in
    o = snd (spec_hop lower [] (HDelete d) M) /\ Inv f' (fst (spec_hop lower [] (HDelete d) M)) had.
  Proof.
    intros (U & F & L) Tidy. cbn [tree_hop spec_hop] in *. destruct (lookup_root f M had depth d V F L) as (L1 & L2). pose proof (mem_at M d (i_C _ _ _ V) F) as Me. destruct (existsb (at_dn lower d) M) eqn:X; cbn [negb] in *.
    2:{ rewrite L2 by (intros H; apply Me in H; discriminate). split; [reflexivity|exact V]. }
    assert (Md : mem d M) by (now apply Me). destruct (L1 Md) as (t & -> & O). pose proof O as (Ed & Ep & _). unfold t_delete, delete_steps. rewrite Ed. destruct d as [|r d].
    { cbn. split; [reflexivity|exact V]. }
    pose proof (plainC _ F) as Pl. rewrite dn_text_ne by exact Pl. change (dn_eqb lower [] (r :: d)) with false in *. cbv iota in *. destruct (sync_spec f M had V t (r :: d) O Md F) as (cs & Sy & K1 & K2). rewrite Sy.
    assert (Xk : existsb (fun x : dn * attrs => match fst x with [] => false | _ :: p => dn_eqb lower p (r :: d) end) M = true <-> exists k, C k /\ mem (k :: r :: d) M).
    { rewrite existsb_exists. split.
      - intros ((x & xa) & I & E). cbn [fst] in E. destruct x as [|k p]; [discriminate|]. pose proof (i_C _ _ _ V _ _ I) as Fx. inversion Fx; subst. apply dn_eq in E; [|assumption|exact F]. subst p. exists k. split; [assumption|now exists xa].
      - intros (k & Ck & (xa & I)). exists (k :: r :: d, xa). split; [exact I|]. cbn [fst]. now apply dn_eq. }
    match type of Tidy with context [if ?b then _ else _] => change b with (existsb (fun x : dn * attrs => match fst x with [] => false | _ :: p => dn_eqb lower p (r :: d) end) M) in * end.
    destruct cs as [|c cs].
    - assert (NK : ~ exists k, C k /\ mem (k :: r :: d) M) by (intros (k & Ck & Mk); apply (K1 k Ck) in Mk; discriminate).
      destruct (existsb (fun x : dn * attrs => match fst x with [] => false | _ :: p => dn_eqb lower p (r :: d) end) M); [destruct NK; now apply Xk|]. cbn [fst snd] in *. specialize (Tidy eq_refl).
      rewrite Ep, dirs_cons, app_assoc. unfold dir_name. rewrite <- abs_ext, endswith_app, chop_app. cbn [negb]. rewrite abs_ext, <- app_assoc. change (dirs_of d ++ [rdn_text r ++ S_ ".ldif"]) with (file_of (r :: d)). destruct (root_app R TR _ (fname_file _ Pl)) as (N & FR).
      destruct Md as (a & I). destruct (i_file _ _ _ V _ _ _ I) as (w & e' & S & _). pose proof (i_closed _ _ _ V) as CF. set (file := R ++ file_of (r :: d)) in *.
      assert (Rm : remove f (abs file) = Ok (drop_node f file)) by (unfold remove; rewrite resolve_abs, walk_there by (try assumption; congruence); cbn [bind]; now rewrite S). cbn [run run_step]. rewrite Rm. split; [reflexivity|].
      assert (Sq : forall q, stat (drop_node f file) q = if path_eqb file q then None else stat f q) by (intros q; now apply stat_drop).
      assert (Keep : forall x xa, In (x, xa) (List.filter (fun y => negb (at_dn lower (r :: d) y)) M) <-> In (x, xa) M /\ x <> r :: d).
      { intros x xa. rewrite filter_In. split.
        - intros (I0 & E). split; [exact I0|]. intros ->. unfold at_dn in E. cbn [fst] in E. rewrite (proj2 (dn_eq _ _ F F) eq_refl) in E. discriminate.
        - intros (I0 & E). split; [exact I0|]. unfold at_dn. cbn [fst]. rewrite dn_eq_false; [reflexivity|exact (i_C _ _ _ V _ _ I0)|exact F|exact E]. }
      assert (NoDir : stat f (R ++ dirs_of (r :: d)) = None) by (destruct (stat f (R ++ dirs_of (r :: d))) eqn:Q; [|reflexivity]; destruct (i_dir _ _ _ V _ F ltac:(congruence)) as (_ & _ & [Z0|Z0]); [discriminate|contradiction]).
      constructor.
      + unfold file. cbn [file_of]. rewrite app_assoc. apply closed_drop; [exact CF|]. rewrite <- app_assoc. change (dirs_of d ++ [rdn_text r ++ S_ ".ldif"]) with (file_of (r :: d)). fold file. congruence.
      + rewrite Sq, path_eqb_ne; [apply (i_root _ _ _ V)|]. unfold file. apply path_len_ne. rewrite app_length. cbn [file_of]. rewrite app_length. cbn. lia.
      + intros x xa J. apply Keep in J. exact (i_C _ _ _ V x xa (proj1 J)).
      + intros r0 d0 xa J. apply Keep in J as (J & Nj). destruct (i_file _ _ _ V _ _ _ J) as (w0 & e0 & S0 & H0). exists w0, e0. split; [|exact H0]. rewrite Sq, path_eqb_ne; [exact S0|]. unfold file. intros Q. apply app_inv_head in Q. apply file_of_inj in Q; [congruence|exact io|exact Pl|exact (plainC _ (i_C _ _ _ V _ _ J))|discriminate].
      + intros r0 d0 F0 N0. rewrite Sq. destruct (path_eqb_spec file (R ++ file_of (r0 :: d0))) as [|Q]; [reflexivity|]. apply (i_nofile _ _ _ V r0 d0 F0). intros (xa & J). apply N0. exists xa. apply Keep. split; [exact J|]. intros E. rewrite E in Q. now apply Q.
      + intros d0 F0. rewrite Sq, path_eqb_ne by (intros Q; symmetry in Q; revert Q; apply tree_path_cases; [now apply plainC|exact Pl]). intros S0. destruct (i_dir _ _ _ V d0 F0 S0) as (A & (xa & B) & Hh). split; [exact A|]. split; [|exact Hh]. exists xa. apply Keep. split; [exact B|]. intros ->. congruence.
      + intros d0 n F0. rewrite Sq. destruct (path_eqb file _); [congruence|]. apply (i_names _ _ _ V d0 n F0).
      + apply Keep. split; [apply (i_top _ _ _ V)|discriminate].
      + intros x J. apply Keep in J. exact (i_top1 _ _ _ V x (proj1 J)).
    - destruct (K2 ltac:(discriminate)) as (k & Ck & Mk). rewrite (proj2 Xk) by eauto. cbn [fst snd]. split; [reflexivity|exact V].
  Qed.

  Lemma hops_spec depth : forall xs f M had, Inv f M had -> (forall u x, In (u, x) xs -> tree_hop_ok lower oc C depth u x) -> tidy lower xs M had ->
    let (f', os) := tree_hops lower io vio oc order R depth xs f in
    let (M', os') := spec_hops lower [] (map snd xs) M in os = os' /\ exists had', Inv f' M' had'.
  Proof.
    induction xs as [|(u & x) xs IH]; intros f M had V Ok_ T; cbn [tree_hops map snd spec_hops]; [split; [reflexivity|eauto]|]. cbn [tidy] in T. destruct T as (T1 & T2).
    assert (H : let (f1, o) := tree_hop lower io vio oc order R depth u x f in o = snd (spec_hop lower [] x M) /\ Inv f1 (fst (spec_hop lower [] x M)) (match x with HAdd p _ _ => p :: had | HDelete _ => had end)).
    { destruct x as [p rd a|d]; [apply add_spec; [exact V|]|apply delete_spec; [exact V| |exact T1]]; apply Ok_; now left. }
    destruct (tree_hop lower io vio oc order R depth u x f) as (f1 & o). destruct H as (-> & V1). destruct (spec_hop lower [] x M) as (M1 & o1). cbn [fst snd] in *. assert (Ok' : forall u0 x0, In (u0, x0) xs -> tree_hop_ok lower oc C depth u0 x0) by (intros u0 x0 I; apply Ok_; now right). specialize (IH f1 M1 _ V1 Ok' T2).
    destruct (tree_hops lower io vio oc order R depth xs f1) as (f2 & os). destruct (spec_hops lower [] (map snd xs) M1) as (M2 & os2). destruct IH as (-> & Hd). split; [reflexivity|exact Hd].
  Qed.
  Lemma inv_start f : closed f -> empty_dir f R -> Inv f [([], [])] [].
  Proof.
    intros CF (S & E). constructor.
    - exact CF.
    - exact S.
    - intros d a [[= <- <-]|[]]. constructor.
    - intros r d a [H|[]]. discriminate.
    - intros r d _ _. cbn [file_of]. destruct (dirs_of d); apply E.
    - intros d Fd. destruct d as [|r d]; [cbn [dirs_of rev map]; rewrite app_nil_r; intros _; split; [exact S|]; split; [exists []; now left|now left]|]. rewrite dirs_cons. intros H. destruct H. destruct (dirs_of d); apply E.
    - intros d n _ H. destruct H. destruct (dirs_of d); apply E.
    - now left.
    - intros a [[= <-]|[]]. reflexivity.
  Qed.
  Lemma map_spec depth xs f f' os M os' : closed f -> empty_dir f R -> (forall u x, In (u, x) xs -> tree_hop_ok lower oc C depth u x) -> tidy lower xs [([], [])] [] ->
    tree_hops lower io vio oc order R depth xs f = (f', os) -> spec_hops lower [] (map snd xs) [([], [])] = (M, os') ->
    os = os' /\ forall d, Forall C d -> (length d < depth)%nat ->
      match find (at_dn lower d) M with
      | Some (_, a) => exists t, t_lookup lower io vio depth f' (t_root R) d = Ok t /\ same_entry (new_entry lower d a) (t_entry t)
      | None => t_lookup lower io vio depth f' (t_root R) d = Err (ELdap 32)
      end.
  Proof.
    intros CF E Ok_ T H1 H2. pose proof (hops_spec depth xs f [([], [])] [] (inv_start f CF E) Ok_ T) as H. rewrite H1, H2 in H. destruct H as (-> & had & V). split; [reflexivity|]. intros d Fd L. pose proof (find_mem M d (i_C _ _ _ V) Fd) as Fm. destruct (lookup_root f' M had depth d V Fd L) as (L1 & L2).
    destruct (find (at_dn lower d) M) as [(p & a)|]; [|exact (L2 Fm)]. destruct Fm as (-> & I). destruct (L1 ltac:(now exists a)) as (t & Lt & (Ed & Ep & Ea)). exists t. split; [exact Lt|]. destruct d as [|r d].
    - rewrite (i_top1 _ _ _ V a I). split; [exact Ed|]. intros k v. unfold says. rewrite Ea. cbn [new_entry e_attrs]. reflexivity.
    - destruct Ea as (w & e' & S & Pw & Ee). destruct (i_file _ _ _ V _ _ _ I) as (w0 & e0 & S0 & P0 & (Dn & Sy)). assert (w0 = w) by congruence. subst w0. assert (e0 = e') by congruence. subst e0. split; [exact Ed|]. intros k v. rewrite <- Sy. unfold says. now rewrite Ee.
  Qed.

  (** ** Children *)
  Lemma loop_members f M had (V : Inv f M had) t d : opened f t d -> Forall C d -> forall names seen cs, (forall n, In n names -> exists r, C r /\ (n = dir_name r \/ n = ldif_name r) /\ mem (r :: d) M) ->
    children_loop lower io vio f t seen names = Ok cs ->
    (forall c, In c cs -> exists r, C r /\ opened f c (r :: d) /\ ~ In (rdn_text r) seen /\ mem (r :: d) M) /\ NoDup (map t_dn cs).
  Proof.
    intros (Ed & Ep & _) Fd. induction names as [|n names IH]; intros seen cs Hn; cbn [children_loop].
    { intros Q. apply Ok_inj in Q. subst cs. split; [intros c []|constructor]. }
    destruct (Hn n (or_introl eq_refl)) as (r & Cr & En & Mr). pose proof (CP r Cr) as Pr.
    assert (Sp : exists ext, splitext n = (rdn_text r, ext) /\ (ext = S_ ".dir" \/ ext = S_ ".ldif")) by (destruct En as [->| ->]; eexists; (split; [first [now apply splitext_dir|now apply splitext_ldif]|auto])). destruct Sp as (ext & Sp & Ext). rewrite Sp.
    assert (X : negb (str_eqb ext (S_ ".dir") || str_eqb ext (S_ ".ldif")) = false) by (destruct Ext as [->| ->]; reflexivity). rewrite X. clear X.
    assert (Hns : forall n', In n' names -> exists r, C r /\ (n' = dir_name r \/ n' = ldif_name r) /\ mem (r :: d) M) by (intros n' I; apply Hn; now right).
    destruct (existsb (str_eqb (rdn_text r)) seen) eqn:Se; [now apply IH|].
    assert (Ns : ~ In (rdn_text r) seen) by (intros I; assert (Q : existsb (str_eqb (rdn_text r)) seen = true) by (apply existsb_exists; exists (rdn_text r); split; [exact I|apply str_eqb_refl]); congruence).
    rewrite (parse_rdn_text io r) by apply Pr. cbn [bind]. rewrite Ed, Ep. destruct (root_app R TR _ (fname_dirs d (plainC d Fd))) as (N & FR). change (rdn_text r ++ S_ ".dir") with (dir_name r). rewrite pjoin_abs by (try assumption; now apply fname_dir). rewrite <- app_assoc, <- dirs_cons.
    destruct (open_mem f M had r d V Mr) as (c & Oc & Hc). rewrite Oc. cbn [bind]. destruct (children_loop lower io vio f t (rdn_text r :: seen) names) as [cs'|] eqn:E; [|discriminate]. cbn [bind]. intros Q. apply Ok_inj in Q. subst cs. destruct (IH _ _ Hns E) as (IH1 & IH2). split.
    - intros x [<-|I]; [exists r; auto|]. destruct (IH1 x I) as (r' & A1 & A2 & A3 & A4). exists r'. split; [exact A1|]. split; [exact A2|]. split; [|exact A4]. intros J. apply A3. now right.
    - cbn [map]. constructor; [|exact IH2]. intros I. apply in_map_iff in I as (x & Ex & I). destruct (IH1 x I) as (r' & _ & (A2 & _) & A3 & _). apply A3. left. pose proof (proj1 Hc) as H0. assert (Q : r' :: d = r :: d) by congruence. injection Q as ->. reflexivity.
  Qed.
  Lemma sync_members f M had (V : Inv f M had) t d : opened f t d -> mem d M -> Forall C d ->
    exists cs, sync_children lower io vio order f t = Ok cs /\ (forall c, In c cs -> exists r, C r /\ opened f c (r :: d) /\ mem (r :: d) M) /\
      (forall r, C r -> (In (r :: d) (map t_dn cs) <-> mem (r :: d) M)) /\ NoDup (map t_dn cs).
  Proof.
    intros O Md Fd. destruct (sync_spec f M had V t d O Md Fd) as (cs & E & H & _). exists cs. split; [exact E|].
    assert (G : (forall c, In c cs -> exists r, C r /\ opened f c (r :: d) /\ mem (r :: d) M) /\ NoDup (map t_dn cs)).
    { pose proof O as (Ed & Ep & _). unfold sync_children in E. rewrite Ep in E. destruct (listdir f (abs (R ++ dirs_of d))) as [names|x] eqn:L.
      - assert (Hn : forall n, In n (order names) -> exists r, C r /\ (n = dir_name r \/ n = ldif_name r) /\ mem (r :: d) M).
        { unfold listdir in L. destruct (resolve f _) as [q|] eqn:Rs; [|discriminate]. cbn [bind] in L. destruct (root_app R TR _ (fname_dirs d (plainC d Fd))) as (N & FR). rewrite resolve_abs in Rs by assumption. apply walk_result in Rs; [|exact FR]. cbn [app] in Rs. subst q. destruct (stat f _) as [[b|]|]; try discriminate. apply Ok_inj in L. subst names.
          intros n I. apply (Permutation_in _ (Permutation_sym (ORD _))) in I. apply names_in_spec in I. rewrite <- app_assoc in I. destruct (i_names _ _ _ V d n Fd I) as (r & Cr & En). exists r. split; [exact Cr|]. split; [exact En|]. assert (Fr : Forall C (r :: d)) by (now constructor).
          destruct En as [->| ->]; [rewrite <- dirs_cons in I; now apply (i_dir _ _ _ V _ Fr)|]. destruct (existsb (at_dn lower (r :: d)) M) eqn:X; [apply mem_at in X; [exact X|exact (i_C _ _ _ V)|exact Fr]|]. destruct I. apply (i_nofile _ _ _ V r d Fr). intros J. apply (mem_at M _ (i_C _ _ _ V) Fr) in J. congruence. }
        destruct (loop_members f M had V t d O Fd _ [] cs Hn E) as (G1 & G2). split; [|exact G2]. intros c I. destruct (G1 c I) as (r & A1 & A2 & _ & A4). eauto.
      - revert E. apply (enoent_or (fun y => y = Ok cs -> (forall c, In c cs -> exists r, C r /\ opened f c (r :: d) /\ mem (r :: d) M) /\ NoDup (map t_dn cs))); [|discriminate]. intros Q. apply Ok_inj in Q. subst cs. split; [intros c []|constructor]. }
    destruct G as (G1 & G2). split; [exact G1|]. split; [|exact G2]. intros r Cr. rewrite <- (H r Cr), existsb_exists. split.
    - intros I. apply in_map_iff in I as (c & Ec & I). exists c. split; [exact I|]. unfold has_rdn. rewrite Ec. now apply C_eq.
    - intros (c & I & Hc). destruct (G1 c I) as (r' & Cr' & (Dc & _) & _). unfold has_rdn in Hc. rewrite Dc in Hc. apply C_eq in Hc; [|exact Cr'|exact Cr]. subst r'. rewrite <- Dc. now apply in_map.
  Qed.
  Lemma sync_ext f t t' : t_dn t = t_dn t' -> t_path t = t_path t' -> sync_children lower io vio order f t = sync_children lower io vio order f t'.
  Proof.
    intros D P. unfold sync_children. rewrite P. destruct (listdir f (t_path t')) as [names|x]; [|reflexivity]. generalize (order names), (@nil str). intros l. induction l as [|n l IH]; intros seen; [reflexivity|]. cbn [children_loop]. rewrite D, P. destruct (splitext n) as (b & e). rewrite !IH. reflexivity.
  Qed.
  Lemma delete_ext f t t' : t_dn t = t_dn t' -> t_path t = t_path t' -> t_delete lower io vio order f t = t_delete lower io vio order f t'.
  Proof. intros D P. unfold t_delete, delete_steps. rewrite D, P, (sync_ext f t t' D P). reflexivity. Qed.
  Lemma delete_child_spec depth xs f f' os u d rd t : closed f -> empty_dir f R -> (forall u x, In (u, x) xs -> tree_hop_ok lower oc C depth u x) -> tidy lower xs [([], [])] [] ->
    tree_hops lower io vio oc order R depth xs f = (f', os) -> Forall C (rd :: d) -> (S (length d) < depth)%nat -> t_lookup lower io vio depth f' (t_root R) d = Ok t ->
    t_delete_child lower io vio order f' t rd = tree_hop lower io vio oc order R depth u (HDelete (rd :: d)) f'.
  Proof.
    intros CF E Ok_ T H1 Fd L Lk. pose proof (hops_spec depth xs f [([], [])] [] (inv_start f CF E) Ok_ T) as H. rewrite H1 in H. destruct (spec_hops lower [] (map snd xs) [([], [])]) as (M & os'). destruct H as (_ & had & V). inversion Fd as [|? ? Cr Cd]; subst.
    destruct (lookup_root f' M had depth d V Cd ltac:(lia)) as (L1 & L2). assert (Md : mem d M). { destruct (existsb (at_dn lower d) M) eqn:X; [apply mem_at in X; [exact X|exact (i_C _ _ _ V)|exact Cd]|]. rewrite L2 in Lk; [discriminate|]. intros J. apply (mem_at M _ (i_C _ _ _ V) Cd) in J. congruence. }
    destruct (L1 Md) as (t1 & Lt & O). assert (t1 = t) by congruence. subst t1. clear L1 L2. destruct (lookup_root f' M had depth (rd :: d) V Fd ltac:(cbn [length]; lia)) as (L1 & L2). destruct (sync_members f' M had V t d O Md Cd) as (cs & Sy & G1 & G2 & _).
    unfold t_delete_child. rewrite Sy. cbn [tree_hop]. destruct (find (has_rdn lower rd) cs) as [c|] eqn:Fi.
    - apply find_some in Fi as (I & Hc). destruct (G1 c I) as (r' & Cr' & Oc & Mr). unfold has_rdn in Hc. rewrite (proj1 Oc) in Hc. apply C_eq in Hc; [|exact Cr'|exact Cr]. subst r'. destruct (L1 Mr) as (t2 & Lt2 & O2). rewrite Lt2. apply delete_ext; [rewrite (proj1 Oc); symmetry; apply O2|]. rewrite (proj1 (proj2 Oc)). symmetry. apply O2.
    - rewrite L2; [reflexivity|]. intros Mr. apply (G2 rd Cr) in Mr. apply in_map_iff in Mr as (c & Ec & I). pose proof (find_none _ _ Fi c I) as Hc. unfold has_rdn in Hc. rewrite Ec in Hc. rewrite (proj2 (C_eq rd rd Cr Cr) eq_refl) in Hc. discriminate.
  Qed.
  Lemma children_spec depth xs f f' os M os' d t : closed f -> empty_dir f R -> (forall u x, In (u, x) xs -> tree_hop_ok lower oc C depth u x) -> tidy lower xs [([], [])] [] ->
    tree_hops lower io vio oc order R depth xs f = (f', os) -> spec_hops lower [] (map snd xs) [([], [])] = (M, os') -> Forall C d -> (length d < depth)%nat -> t_lookup lower io vio depth f' (t_root R) d = Ok t ->
    exists cs, sync_children lower io vio order f' t = Ok cs /\ NoDup (map t_dn cs) /\
      (forall x, In x (map t_dn cs) <-> exists r a, x = r :: d /\ In (r :: d, a) M) /\
      forall c, In c cs -> exists a, In (t_dn c, a) M /\ same_entry (new_entry lower (t_dn c) a) (t_entry c).
  Proof.
    intros CF E Ok_ T H1 H2 Cd L Lk. pose proof (hops_spec depth xs f [([], [])] [] (inv_start f CF E) Ok_ T) as H. rewrite H1, H2 in H. destruct H as (_ & had & V).
    destruct (lookup_root f' M had depth d V Cd L) as (L1 & L2). assert (Md : mem d M). { destruct (existsb (at_dn lower d) M) eqn:X; [apply mem_at in X; [exact X|exact (i_C _ _ _ V)|exact Cd]|]. rewrite L2 in Lk; [discriminate|]. intros J. apply (mem_at M _ (i_C _ _ _ V) Cd) in J. congruence. }
    destruct (L1 Md) as (t1 & Lt & O). assert (t1 = t) by congruence. subst t1. destruct (sync_members f' M had V t d O Md Cd) as (cs & Sy & G1 & G2 & G3). exists cs. split; [exact Sy|]. split; [exact G3|]. split.
    - intros x. split.
      + intros I. apply in_map_iff in I as (c & <- & I). destruct (G1 c I) as (r & Cr & (Dc & _) & (a & Ia)). exists r, a. auto.
      + intros (r & a & -> & I). assert (Cr : C r) by (pose proof (i_C _ _ _ V _ _ I) as F; now inversion F). apply (G2 r Cr). now exists a.
    - intros c I. destruct (G1 c I) as (r & Cr & (Dc & Pc & (w & e' & S & Pw & Ee)) & (a & Ia)). exists a. rewrite Dc. split; [exact Ia|]. destruct (i_file _ _ _ V _ _ _ Ia) as (w0 & e0 & S0 & P0 & (Dn & Sy0)). assert (w0 = w) by congruence. subst w0. assert (e0 = e') by congruence. subst e0. split; [exact Dc|]. intros k v. rewrite <- Sy0. unfold says. now rewrite Ee.
  Qed.
End Map.
