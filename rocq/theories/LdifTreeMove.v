(** Moving an entry of the LDIF tree. *)
From Verif Require Import Base BaseFacts Utf8Model DnModel DnSpec DnProofs EntryModel LdifModel LdifSpec InmemModel InmemSpec FsModel LdifTreeModel LdifTreeSpec FsProofs LdifTreeProofs LdifTreePlaces.

(** ** Renames *)
Lemma inside_len p q : inside p q -> (length p <= length q)%nat. Proof. intros (s & ->). rewrite app_length. lia. Qed.
Lemma inside_skip p q : inside p q -> q = p ++ skipn (length p) q. Proof. intros (s & ->). now rewrite skipn_app, skipn_all, Nat.sub_diag. Qed.
Lemma below_refl p s : below_or_at p (p ++ s) = true. Proof. apply below_spec. now exists s. Qed.
Lemma below_not p q : ~ inside p q -> below_or_at p q = false. Proof. intros N. destruct (below_or_at p q) eqn:E; [|reflexivity]. apply below_spec in E. now destruct N. Qed.

Lemma find_move (p q r : path) : forall l : fs, (forall k n, In (k, n) l -> ~ inside q k) ->
  option_map snd (find (fun x => path_eqb (fst x) r) (map (fun x => if below_or_at p (fst x) then (q ++ skipn (length p) (fst x), snd x) else x) l)) =
  if below_or_at q r then option_map snd (find (fun x => path_eqb (fst x) (p ++ skipn (length q) r)) l)
  else if below_or_at p r then None else option_map snd (find (fun x => path_eqb (fst x) r) l).
Proof.
  induction l as [|(k & n) l IH]; intros H; [cbn; now destruct (below_or_at q r), (below_or_at p r)|].
  assert (Hl : forall k n, In (k, n) l -> ~ inside q k) by (intros k' n' I; apply (H k' n'); now right). specialize (IH Hl). pose proof (H k n (or_introl eq_refl)) as Nk. cbn [map find fst snd].
  destruct (below_or_at p k) eqn:Bk.
  - apply below_spec in Bk as (s & ->). rewrite skipn_app, skipn_all, Nat.sub_diag. cbn [app skipn fst snd].
    destruct (below_or_at q r) eqn:Br.
    + apply below_spec in Br as (s' & ->). rewrite skipn_app, skipn_all, Nat.sub_diag in *. cbn [app skipn] in *. destruct (path_eqb_spec (q ++ s) (q ++ s')) as [E|E].
      * apply app_inv_head in E. subst s'. rewrite path_eqb_refl. reflexivity.
      * rewrite (path_eqb_ne (p ++ s) (p ++ s')); [exact IH|]. intros X. apply E. f_equal. now apply app_inv_head in X.
    + rewrite (path_eqb_ne (q ++ s) r); [|intros X; rewrite <- X in Br; rewrite below_refl in Br; discriminate]. destruct (below_or_at p r) eqn:Bp; [exact IH|].
      rewrite (path_eqb_ne (p ++ s) r); [exact IH|]. intros X. rewrite <- X in Bp. rewrite below_refl in Bp. discriminate.
  - destruct (below_or_at q r) eqn:Br.
    + rewrite (path_eqb_ne (fst (k, n)) r); [|cbn [fst]; intros ->; apply Nk; now apply below_spec]. rewrite (path_eqb_ne k (p ++ _)); [exact IH|]. intros ->. rewrite below_refl in Bk. discriminate.
    + destruct (below_or_at p r) eqn:Bp.
      * rewrite (path_eqb_ne (fst (k, n)) r); [exact IH|]. cbn [fst]. intros ->. congruence.
      * cbn [fst]. destruct (path_eqb k r); [reflexivity|exact IH].
Qed.
(** The file system after a directory and all in it got another name. *)
Definition renamed (f f' : fs) (p q : path) : Prop :=
  forall r, stat f' r = if below_or_at q r then stat f (p ++ skipn (length q) r) else if below_or_at p r then None else stat f r.
Lemma below_none f (CF : closed f) q r : stat f q <> Some Dir -> inside q r -> r <> q -> stat f r = None.
Proof.
  intros N (s & ->) Ne. destruct (stat f (q ++ s)) eqn:E; [|reflexivity]. destruct s as [|x s]; [now rewrite app_nil_r in Ne|]. destruct N. apply (closed_up f CF (x :: s)); [congruence|discriminate].
Qed.
Lemma move_tree_stat f (CF : closed f) p q : p <> [] -> q <> [] -> stat f q = None -> renamed f (move_tree f p q) p q.
Proof.
  intros Np Nq Sq r. unfold move_tree. destruct r as [|x r]; [destruct p, q; try congruence; reflexivity|].
  assert (Hk : forall k n, In (k, n) (drop_node f q) -> ~ inside q k).
  { intros k n I Ik. unfold drop_node in I. apply filter_In in I as (I & D). cbn [fst] in D. destruct (path_eqb_spec k q) as [->|Nk]; [discriminate|].
    assert (K : stat f k <> None) by (apply stat_in; [intros ->; destruct Ik as (s & E); destruct q; [congruence|discriminate]|now exists n]). apply K. apply (below_none f CF q k); [rewrite Sq; discriminate|exact Ik|exact Nk]. }
  assert (Dq : forall k, option_map snd (find (fun x => path_eqb (fst x) k) (drop_node f q)) = match k with [] => None | _ => stat f k end \/ k = []).
  { intros k. destruct k as [|y k]; [now right|]. left. pose proof (stat_drop f q (y :: k) Nq) as H. unfold stat at 1 in H. rewrite H. destruct (path_eqb_spec q (y :: k)) as [<-|]; [now rewrite Sq|reflexivity]. }
  unfold stat at 1. rewrite (find_move p q (x :: r) (drop_node f q) Hk). destruct (below_or_at q (x :: r)).
  - destruct (Dq (p ++ skipn (length q) (x :: r))) as [H|H]; [|destruct p; [congruence|discriminate]]. rewrite H. destruct p; [congruence|]. reflexivity.
  - destruct (below_or_at p (x :: r)); [reflexivity|]. destruct (Dq (x :: r)) as [H|H]; [exact H|discriminate].
Qed.
Lemma renamed_closed f (CF : closed f) f' p q pq n : renamed f f' p q -> q = pq ++ [n] -> stat f pq = Some Dir -> ~ inside p pq -> closed f'.
Proof.
  intros H Eq D Np r m. rewrite (H (r ++ [m])), (H r). destruct (below_or_at q r) eqn:B.
  - apply below_spec in B as (s & ->). rewrite <- app_assoc, below_refl. rewrite !skipn_app, !skipn_all, !Nat.sub_diag. cbn [skipn app]. rewrite app_assoc. apply CF.
  - destruct (below_or_at q (r ++ [m])) eqn:B2.
    + assert (E : r = pq /\ m = n).
      { apply below_spec in B2 as (s & E). destruct s as [|y s] using rev_ind; [rewrite app_nil_r, Eq in E; apply app_inj_tail in E; exact E|]. rewrite app_assoc in E. apply app_inj_tail in E as (E & _). rewrite E, below_refl in B. discriminate. }
      destruct E as (-> & ->). intros _. rewrite below_not by exact Np. exact D.
    + destruct (below_or_at p (r ++ [m])) eqn:B3; [congruence|]. destruct (below_or_at p r) eqn:B4; [apply below_spec in B4 as (s & ->); rewrite <- app_assoc, below_refl in B3; discriminate|]. apply CF.
Qed.
Lemma enoent_inv {A} (x : exn) (u v : A) : match (Err x : res A) with Err (EUser 60) => Ok u | y => y end = Ok v -> x = ENOENT /\ u = v.
Proof.
  destruct x; try discriminate; repeat match goal with |- match ?n with _ => _ end = _ -> _ => destruct n; try discriminate end; intros Q; apply Ok_inj in Q; auto.
Qed.
(** The first rename of a move. [p] and [q] are in directories that are there. *)
Lemma try_rename f (CF : closed f) f1 pp n pq m : let p := pp ++ [n] in let q := pq ++ [m] in Forall fname p -> Forall fname q -> stat f q = None ->
  run_step f (STryRename (abs p) (abs q)) = Ok f1 -> stat f1 pp = Some Dir -> stat f1 pq = Some Dir ->
  renamed f f1 p q /\ closed f1 /\ stat f pp = Some Dir /\ stat f pq = Some Dir /\ ~ inside p pq.
Proof.
  intros p q Fp Fq Sq Run D1 D2. assert (Np : p <> []) by (unfold p; destruct pp; discriminate). assert (Nq : q <> []) by (unfold q; destruct pq; discriminate). cbn [run_step] in Run.
  assert (Same : stat f p = None -> renamed f f p q).
  { intros Sp r. destruct (below_or_at q r) eqn:B.
    - apply below_spec in B. assert (A1 : stat f r = None) by (destruct (path_eqb_spec r q) as [->|Ne]; [exact Sq|apply (below_none f CF q); [rewrite Sq; discriminate|exact B|exact Ne]]). rewrite A1. symmetry.
      destruct (skipn (length q) r) as [|y s] eqn:K; [now rewrite app_nil_r|]. apply (below_none f CF p); [rewrite Sp; discriminate|now exists (y :: s)|]. intros X. rewrite <- (app_nil_r p) in X at 2. apply app_inv_head in X. discriminate.
    - destruct (below_or_at p r) eqn:B2; [|reflexivity]. apply below_spec in B2. destruct (path_eqb_spec r p) as [->|Ne]; [exact Sp|]. apply (below_none f CF p); [rewrite Sp; discriminate|exact B2|exact Ne]. }
  assert (NoIn : stat f pq = Some Dir -> stat f p = None -> ~ inside p pq).
  { intros Dq Sp I. destruct (path_eqb_spec pq p) as [->|Ne]; [congruence|]. assert (stat f pq = None) by (apply (below_none f CF p); [rewrite Sp; discriminate|exact I|exact Ne]). congruence. }
  destruct (rename f (abs p) (abs q)) as [g|x] eqn:Rn.
  - apply Ok_inj in Run. subst g. unfold rename in Rn. destruct (resolve f (abs p)) as [p'|] eqn:R1; [|discriminate]. destruct (resolve_parent f pp n p' Fp R1) as (-> & Dp). cbn [bind] in Rn. destruct (resolve f (abs q)) as [q'|] eqn:R2; [|discriminate]. destruct (resolve_parent f pq m q' Fq R2) as (-> & Dq). cbn [bind] in Rn. fold p q in Rn.
    destruct (stat f p) as [[c|]|] eqn:Sp; [| |discriminate].
    + rewrite Sq in Rn. destruct (path_eqb_spec p q) as [E|E]; [congruence|]. apply Ok_inj in Rn. subst f1.
      assert (NI : ~ inside p pq) by (intros I; destruct (path_eqb_spec pq p) as [X|Ne]; [congruence|]; assert (stat f pq = None) by (apply (below_none f CF p); [rewrite Sp; discriminate|exact I|exact Ne]); congruence).
      assert (H : renamed f (put_node (drop_node f p) q (File c)) p q).
      { intros r. rewrite stat_put, stat_drop by assumption. destruct (path_eqb_spec q r) as [<-|Nr]; [rewrite <- (app_nil_r q) at 2; rewrite below_refl; rewrite skipn_all, app_nil_r; now rewrite Sp|].
        destruct (below_or_at q r) eqn:B.
        - apply below_spec in B as (s & ->). destruct s as [|y s]; [now rewrite app_nil_r in Nr|]. rewrite skipn_app, skipn_all, Nat.sub_diag. cbn [skipn app].
          assert (A1 : stat f (q ++ y :: s) = None) by (apply (below_none f CF q); [rewrite Sq; discriminate|now exists (y :: s)|congruence]). assert (A2 : stat f (p ++ y :: s) = None) by (apply (below_none f CF p); [rewrite Sp; discriminate|now exists (y :: s)|]; intros X; rewrite <- (app_nil_r p) in X at 2; apply app_inv_head in X; discriminate).
          rewrite A1, A2. now destruct (path_eqb p (q ++ y :: s)).
        - destruct (path_eqb_spec p r) as [<-|Ne]; [rewrite <- (app_nil_r p) at 2; now rewrite below_refl|]. destruct (below_or_at p r) eqn:B2; [|reflexivity]. apply below_spec in B2. apply (below_none f CF p); [rewrite Sp; discriminate|exact B2|congruence]. }
      split; [exact H|]. split; [exact (renamed_closed f CF _ p q pq m H eq_refl Dq NI)|]. auto.
    + destruct (path_eqb_spec p q) as [E|E]; [congruence|]. destruct (below_or_at p q) eqn:B; [discriminate|]. rewrite Sq in Rn. apply Ok_inj in Rn. subst f1. pose proof (move_tree_stat f CF p q Np Nq Sq) as H.
      assert (NI : ~ inside p pq) by (intros (s & ->); unfold q in B; rewrite <- app_assoc, below_refl in B; discriminate). split; [exact H|]. split; [exact (renamed_closed f CF _ p q pq m H eq_refl Dq NI)|]. auto.
  - assert (X : f1 = f /\ x = ENOENT).
    { apply enoent_inv in Run. destruct Run; auto. }
    destruct X as (-> & ->). assert (Sp : stat f p = None).
    { unfold rename, p, q in Rn. rewrite !resolve_child in Rn by assumption. cbn [bind] in Rn. fold p q in Rn. destruct (stat f p) as [[c|]|]; [| |reflexivity].
      - rewrite Sq in Rn. destruct (path_eqb p q); discriminate.
      - rewrite Sq in Rn. destruct (path_eqb p q); [discriminate|]. destruct (below_or_at p q); discriminate. }
    split; [exact (Same Sp)|]. split; [exact CF|]. split; [exact D1|]. split; [exact D2|]. exact (NoIn D2 Sp).
Qed.

(** ** Reading *)
Lemma read_shift f (CF : closed f) f' (CF' : closed f') pp n pq m r : let p := pp ++ [n] in let q := pq ++ [m] in Forall fname p -> Forall fname q -> Forall fname r ->
  stat f pp = Some Dir -> stat f' pq = Some Dir -> (forall s, stat f' (q ++ s) = stat f (p ++ s)) ->
  read_file f' (abs (q ++ r)) = read_file f (abs (p ++ r)).
Proof.
  intros p q Fp Fq Fr Dp Dq H. pose proof (resolve_child f CF pp n Fp Dp) as R1. pose proof (resolve_child f' CF' pq m Fq Dq) as R2. assert (Np : p <> []) by (unfold p; destruct pp; discriminate). assert (Nq : q <> []) by (unfold q; destruct pq; discriminate). fold p in R1. fold q in R2.
  rewrite resolve_abs in R1, R2 by assumption. assert (Fpr : Forall fname (p ++ r)) by (apply Forall_app; auto). assert (Fqr : Forall fname (q ++ r)) by (apply Forall_app; auto).
  unfold read_file. rewrite !resolve_abs; try assumption; [|destruct p; [congruence|discriminate]|destruct q; [congruence|discriminate]]. rewrite (walk_app f p [] _ r Fp R1), (walk_app f' q [] _ r Fq R2). cbn [app].
  assert (G : forall r s, Forall fname r -> match walk_to f' (q ++ s) r, walk_to f (p ++ s) r with Ok a, Ok b => exists t, a = q ++ t /\ b = p ++ t | Err x, Err y => x = y | _, _ => False end).
  { clear r Fr Fpr Fqr. induction r as [|c r IH]; intros s Fr; [cbn [walk_to]; now exists s|]. inversion Fr; subst. rewrite !walk_cons by assumption. rewrite H. destruct (stat f (p ++ s)) as [[b|]|]; try reflexivity. rewrite <- !app_assoc. now apply IH. }
  specialize (G r [] Fr). rewrite !app_nil_r in G. destruct (walk_to f' q r) as [a|], (walk_to f p r) as [b|]; [|destruct G|destruct G|now rewrite G]. destruct G as (t & -> & ->). cbn [bind]. now rewrite H.
Qed.

Lemma run_put_ok lower oc f (CF : closed f) uuid dd t e f' : Forall fname (dd ++ [tmp_name t uuid]) -> Forall fname (dd ++ [t ++ S_ ".ldif"]) ->
  (let (steps, r) := put_entry lower oc uuid (abs (dd ++ [t])) e in run f steps r) = (f', Ok tt) ->
  exists w, entry_toWire lower oc e = Ok w /\ closed f' /\ stored f f' (dd ++ [tmp_name t uuid]) (dd ++ [t ++ S_ ".ldif"]) w.
Proof.
  intros Ft Ff. pose proof (crash_put lower oc f CF uuid dd t e f' Ft Ff) as H. pose proof (put_entry_abs lower oc uuid dd t e) as Pe. cbv zeta in Pe. destruct (entry_toWire lower oc e) as [w|x] eqn:W.
  2:{ rewrite Pe. cbn [run]. destruct (run_step _ _); discriminate. }
  destruct (put_entry lower oc uuid (abs (dd ++ [t])) e) as (steps & r). assert (Es : steps = [SCreate (abs (dd ++ [tmp_name t uuid])); SWrite (abs (dd ++ [tmp_name t uuid])) w; SRename (abs (dd ++ [tmp_name t uuid])) (abs (dd ++ [t ++ S_ ".ldif"]))]) by congruence. assert (Er : r = Ok tt) by congruence. clear Pe. subst r.
  intros Run. pose proof (run_crash steps f (Ok tt)) as Cr. rewrite Run in Cr. cbn [fst] in Cr. destruct (H Cr) as (C' & [T|(w' & W' & St & _)]); [|exists w; assert (w' = w) by congruence; subst w'; auto].
  exists w. split; [reflexivity|]. split; [exact C'|]. subst steps. set (tmp := dd ++ [tmp_name t uuid]) in *. set (file := dd ++ [t ++ S_ ".ldif"]) in *.
  assert (Nt : tmp <> []) by (unfold tmp; destruct dd; discriminate). assert (Nf : file <> []) by (unfold file; destruct dd; discriminate).
  cbn [run run_step] in Run. destruct (create f (abs tmp)) as [f1|] eqn:E1; [|discriminate]. cbn [run_step] in Run. destruct (append f1 (abs tmp) w) as [f2|] eqn:E2; [|discriminate]. cbn [run_step] in Run. destruct (rename f2 (abs tmp) (abs file)) as [f3|] eqn:E3; [|discriminate]. assert (f3 = f') by congruence. subst f3.
  unfold create in E1. destruct (resolve f (abs tmp)) as [q1|] eqn:R1; [|discriminate]. destruct (resolve_parent f dd _ q1 Ft R1) as (-> & D). cbn [bind] in E1. fold tmp in E1. assert (E1' : f1 = put_node f tmp (File [])) by (destruct (stat f tmp) as [[c|]|]; congruence).
  unfold append in E2. destruct (resolve f1 (abs tmp)) as [q2|] eqn:R2; [|discriminate]. destruct (resolve_parent f1 dd _ q2 Ft R2) as (-> & D1). cbn [bind] in E2. fold tmp in E2. assert (S1 : stat f1 tmp = Some (File [])) by (subst f1; rewrite stat_put, path_eqb_refl by assumption; reflexivity). rewrite S1 in E2. apply Ok_inj in E2. cbn [app] in E2.
  assert (S2 : stat f2 tmp = Some (File w)) by (subst f2; rewrite stat_put, path_eqb_refl by assumption; reflexivity).
  unfold rename in E3. destruct (resolve f2 (abs tmp)) as [q3|] eqn:R3; [|discriminate]. destruct (resolve_parent f2 dd _ q3 Ft R3) as (-> & D2). cbn [bind] in E3. destruct (resolve f2 (abs file)) as [q4|] eqn:R4; [|discriminate]. destruct (resolve_parent f2 dd _ q4 Ff R4) as (-> & D4). cbn [bind] in E3. fold tmp in E3. change (dd ++ [t ++ S_ ".ldif"]) with file in E3. rewrite S2 in E3.
  assert (Ntf : tmp <> file) by (unfold tmp, file; intros X; apply app_inj_tail in X as (_ & X); unfold tmp_name in X; change (S_ ".ldif") with (S_ "." ++ S_ "ldif") in X; rewrite !app_assoc in X; apply ends_differ in X; [discriminate|reflexivity]).
  rewrite (path_eqb_ne tmp file Ntf) in E3. assert (E3' : f' = put_node (drop_node f2 tmp) file (File w)) by (destruct (stat f2 file) as [[c|]|]; congruence).
  split; [|split].
  - subst f'. rewrite stat_put, path_eqb_refl by assumption. reflexivity.
  - subst f'. rewrite stat_put, path_eqb_ne, stat_drop, path_eqb_refl by congruence. reflexivity.
  - intros q N1 N2. now apply T.
Qed.

Lemma dirs_app a b : dirs_of (a ++ b) = dirs_of b ++ dirs_of a.
Proof. unfold dirs_of. now rewrite rev_app_distr, map_app. Qed.
Lemma same_dn_len lower a b : dn_eqb lower a b = true -> length a = length b.
Proof. intros H. apply dn_eqb_spec in H. induction H; cbn; congruence. Qed.
Lemma dirs_prefix (io : Z -> Z -> res Z) a b s : plain a -> plain b -> dirs_of b = dirs_of a ++ s -> exists x, b = x ++ a.
Proof.
  intros Pa Pb. unfold dirs_of. assert (X : forall m l, Forall plain_rdn l -> Forall plain_rdn m -> map (fun r => rdn_text r ++ S_ ".dir") l = map (fun r => rdn_text r ++ S_ ".dir") m ++ s -> exists y, l = m ++ y).
  { induction m as [|r m IH]; intros l Fl Fm E; [now exists l|]. destruct l as [|r' l]; [discriminate|]. cbn [map app] in E. injection E as E1 E2. apply app_inv_tail in E1. inversion Fl; inversion Fm; subst. destruct (IH l) as (y & ->); try assumption. exists y. cbn [app]. f_equal. now apply (rdn_text_inj io). }
  intros E. destruct (X _ _ (Forall_rev Pb) (Forall_rev Pa) E) as (y & Y). exists (rev y). rewrite <- (rev_involutive b), Y, rev_app_distr, rev_involutive. reflexivity.
Qed.
Lemma dir_not_ldif a b : dir_name a <> ldif_name b.
Proof. unfold dir_name, ldif_name. change (S_ ".ldif") with (S_ "." ++ S_ "ldif"). rewrite app_assoc. intros X. apply ends_differ in X; [discriminate|reflexivity]. Qed.
Lemma file_below (io : Z -> Z -> res Z) (R : path) a b : plain a -> plain b -> inside (R ++ dirs_of a) (R ++ file_of b) -> exists x, b = x ++ a.
Proof.
  intros Pa Pb (s & E). rewrite <- app_assoc in E. apply app_inv_head in E. destruct b as [|r b]; [cbn [file_of] in E; symmetry in E; apply app_eq_nil in E as (E & _); destruct a as [|y a]; [now exists []|rewrite dirs_cons in E; destruct (dirs_of a); discriminate]|].
  cbn [file_of] in E. inversion Pb; subst. destruct s as [|y s _] using rev_ind.
  - rewrite app_nil_r in E. destruct a as [|y a]; [destruct (dirs_of b); discriminate|]. rewrite dirs_cons in E. apply app_inj_tail in E as (_ & E). now apply eq_sym, dir_not_ldif in E.
  - rewrite app_assoc in E. apply app_inj_tail in E as (E & _). destruct (dirs_prefix io a b s) as (x & ->); try assumption. now exists (r :: x).
Qed.

Section Move.
  Variable lower : str -> str.
  Variable io : Z -> Z -> res Z.
  Variable vio : str -> res Z.
  Variable oc : bool.
  Variable R : path.
  Hypothesis TR : tree_root R.

  (** An entry found by its DN is where the DN says. *)
  Lemma lookup_path : forall depth f t d t' pre s, placed R t -> t_dn t = s -> d = pre ++ s -> plain d -> t_lookup lower io vio depth f t d = Ok t' -> t_dn t' = d /\ placed R t'.
  Proof.
    induction depth as [|k IH]; intros f t d t' pre s Pl Es Ed P; cbn [t_lookup]; [discriminate|]. destruct (negb (contains lower (t_dn t) d)); [discriminate|]. destruct (dn_eqb lower d (t_dn t)) eqn:Q.
    - intros X. apply Ok_inj in X. subst t'. apply same_dn_len in Q. rewrite Ed, Es, app_length in Q. destruct pre; [|cbn in Q; lia]. cbn [app] in Ed. subst. auto.
    - destruct (nth_error d _) as [rd|] eqn:E; [|discriminate]. cbv zeta. assert (Pr : plain_rdn rd) by (apply nth_error_In in E; unfold plain in P; rewrite Forall_forall in P; now apply P). destruct Pl as (Pt & Ps). rewrite Es in Ps, Pt. destruct (root_app R TR _ (fname_dirs s Ps)) as (N & FR).
      rewrite Pt, !pjoin_abs by (try assumption; first [now apply fname_dir|now apply fname_ldif]). destruct (_ && _)%bool; [discriminate|]. rewrite <- app_assoc. unfold dir_name. destruct (open_entry lower io vio f _ (rd :: t_dn t)) as [c|] eqn:O; [|discriminate]. cbn [bind].
      destruct (open_in_place lower io vio R f (dirs_of s) (rdn_text rd) _ c (fname_dirs s Ps) (fname_dir rd Pr) O) as (_ & Dc & Pc). rewrite Es in Dc.
      assert (Ex : exists pre', d = pre' ++ rd :: s).
      { destruct pre as [|x pre _] using rev_ind; [cbn [app] in Ed; rewrite Es, Ed, Nat.sub_diag in E; cbn in E; rewrite Ed in *|].
        - exfalso. rewrite Es in Q. assert (X : dn_eqb lower s s = true) by (apply dn_eqb_spec; exact (proj1 (same_dn_equiv lower) s)). congruence.
        - exists pre. rewrite Ed, <- app_assoc. cbn [app]. f_equal. f_equal. rewrite Es, Ed, <- app_assoc in E. cbn [app] in E. rewrite app_length in E. cbn [length] in E. replace (length pre + S (length s) - length s - 1)%nat with (length pre) in E by lia. rewrite nth_error_app2, Nat.sub_diag in E by lia. cbn in E. congruence. }
      destruct Ex as (pre' & Ex). apply (IH f c d t' pre' (rd :: s)); [|exact Dc|exact Ex|exact P]. split; [rewrite Pc, Dc, dirs_cons; reflexivity|]. rewrite Dc. now constructor.
  Qed.

  Lemma move_dest depth f t newDN p s t' : placed R t -> plain newDN -> (dn_eqb lower (dn_up newDN) (dn_up (t_dn t)) = true -> dn_up newDN = dn_up (t_dn t)) ->
    new_parent lower io vio depth f t newDN = Ok p -> move_steps lower t p newDN = Ok (s, t') ->
    exists o d n nd e1 e2, t_dn t = o :: d /\ newDN = n :: nd /\ each_value (remove_av lower) o (t_entry t) = Ok e1 /\ each_value (add_av lower) n e1 = Ok e2 /\ t_entry t' = mkEntry newDN (e_attrs e2) /\ placed R t' /\
      s = [STryRename (abs (R ++ dirs_of (o :: d))) (abs (R ++ dirs_of (n :: nd))); SRename (abs (R ++ file_of (o :: d))) (abs (R ++ file_of (n :: nd)))].
  Proof.
    intros (Pt & P) Pn HP Np. unfold move_steps. destruct (t_dn t) as [|o d] eqn:Et; [discriminate|]. destruct newDN as [|n nd]; [discriminate|]. inversion P as [|? ? Po Pd]; inversion Pn as [|? ? Pnr Pnd]; subst. destruct (each_value _ o _) as [e1|] eqn:E1; [|discriminate]. cbn [bind]. destruct (each_value _ n e1) as [e2|] eqn:E2; [|discriminate]. cbn [bind].
    destruct (root_app R TR _ (fname_dirs d Pd)) as (N & F). destruct (root_app R TR _ (fname_dirs nd Pnd)) as (Nq & FRq).
    assert (D : match p with None => dirname (t_path t) | Some x => t_path x end = abs (R ++ dirs_of nd)).
    { unfold new_parent in Np. rewrite Et in Np. cbn [dn_up tl] in Np, HP. destruct (dn_eqb lower nd d) eqn:Q; cbn [negb] in Np.
      - apply Ok_inj in Np. subst p. rewrite (HP eq_refl). rewrite Pt, dirs_cons, app_assoc. apply dirname_abs; [exact N|]. apply Forall_app. split; [exact F|constructor; [now apply fname_dir|constructor]].
      - rewrite Pt, (climb_abs R TR) in Np by exact P. change (open_entry lower io vio f (abs R) []) with (Ok (mkLent (abs R) (mkEntry [] []))) in Np. cbn [bind] in Np. destruct (t_lookup lower io vio depth f _ _) as [x|] eqn:L; [|discriminate]. cbn [bind] in Np. apply Ok_inj in Np. subst p.
        assert (PR : placed R (mkLent (abs R) (mkEntry [] []))) by (split; [cbn; now rewrite app_nil_r|constructor]). destruct (lookup_path depth f _ nd x nd [] PR eq_refl (eq_sym (app_nil_r nd)) Pnd L) as (Dx & (Px & _)). now rewrite Px, Dx. }
    rewrite D. rewrite !(pjoin_abs (R ++ dirs_of nd)) by (try assumption; first [now apply fname_dir|now apply fname_ldif]). rewrite Pt, dirs_cons, app_assoc. pose proof (rdn_text_part o Po) as (T1 & T2).
    assert (Sp : splitext (abs ((R ++ dirs_of d) ++ [dir_name o])) = (abs ((R ++ dirs_of d) ++ [rdn_text o]), S_ ".dir")).
    { apply (splitext_abs (R ++ dirs_of d) (rdn_text o) (S_ "dir")); [intros J; apply in_app_iff in J as [J|J]; [exact (T1 J)|revert J; apply (part_lit (S_ ".dir")); reflexivity]|apply rdn_text_eqsign, Po|intros J; repeat destruct J as [J|J]; try discriminate J; contradiction]. }
    rewrite Sp. destruct (negb _); [discriminate|]. intros X. apply Ok_inj in X. exists o, d, n, nd, e1, e2. pose proof (f_equal fst X) as X1. pose proof (f_equal snd X) as X2. cbn [fst snd] in X1, X2. subst t'. cbn [t_entry t_path].
    split; [reflexivity|]. split; [reflexivity|]. split; [exact E1|]. split; [exact E2|]. split; [reflexivity|]. split; [split; [cbn [t_path]; rewrite <- app_assoc, <- dirs_cons; reflexivity|exact Pn]|]. rewrite <- X1, abs_ext, <- !app_assoc, <- !dirs_cons. reflexivity.
  Qed.

  (** The two renames. *)
  Lemma same_len_inside p a b : inside (p ++ [a]) (p ++ [b]) -> a = b.
  Proof. intros (s & E). rewrite <- app_assoc in E. apply app_inv_head in E. cbn [app] in E. congruence. Qed.
  Lemma renames f (CF : closed f) o d n nd f2 : plain (o :: d) -> plain (n :: nd) -> o :: d <> n :: nd -> (exists e0, get lower io vio f (abs R) (o :: d) = Ok e0) -> stat f (R ++ dirs_of (n :: nd)) = None ->
    run f [STryRename (abs (R ++ dirs_of (o :: d))) (abs (R ++ dirs_of (n :: nd))); SRename (abs (R ++ file_of (o :: d))) (abs (R ++ file_of (n :: nd)))] (Ok tt) = (f2, Ok tt) ->
    closed f2 /\ get lower io vio f2 (abs R) (o :: d) = Err ENOENT /\
    (forall x, x <> [] -> plain x -> get lower io vio f2 (abs R) (x ++ n :: nd) = get lower io vio f (abs R) (x ++ o :: d)) /\
    (forall e, plain e -> (forall x, e <> x ++ n :: nd) -> (forall x, e <> x ++ o :: d) -> get lower io vio f2 (abs R) e = get lower io vio f (abs R) e).
  Proof.
    intros P Pn Ne (e0 & G) Sq Run. inversion P as [|? ? Po Pd]; inversion Pn as [|? ? Pnr Pnd]; subst.
    set (pp := R ++ dirs_of d). set (pq := R ++ dirs_of nd).
    assert (EP : R ++ dirs_of (o :: d) = pp ++ [dir_name o]) by (unfold pp; now rewrite dirs_cons, app_assoc).
    assert (EQ : R ++ dirs_of (n :: nd) = pq ++ [dir_name n]) by (unfold pq; now rewrite dirs_cons, app_assoc).
    assert (EA : R ++ file_of (o :: d) = pp ++ [ldif_name o]) by (unfold pp; cbn [file_of]; now rewrite app_assoc).
    assert (EB : R ++ file_of (n :: nd) = pq ++ [ldif_name n]) by (unfold pq; cbn [file_of]; now rewrite app_assoc).
    destruct (root_app R TR _ (fname_dirs _ P)) as (NP & FP). destruct (root_app R TR _ (fname_dirs _ Pn)) as (NQ & FQ). destruct (root_app R TR _ (fname_file _ P)) as (NA & FA). destruct (root_app R TR _ (fname_file _ Pn)) as (NB & FB).
    assert (SA : exists c, stat f (R ++ file_of (o :: d)) = Some (File c)).
    { rewrite (get_abs lower io vio R TR) in G by exact P. pose proof (read_abs f CF _ FA NA) as Rd. destruct (stat f (R ++ file_of (o :: d))) as [[c|]|]; [now exists c|rewrite Rd in G; discriminate|destruct Rd as [Rd|Rd]; rewrite Rd in G; discriminate]. }
    destruct SA as (c & SA).
    assert (AB : R ++ file_of (o :: d) <> R ++ file_of (n :: nd)) by (intros X; apply app_inv_head in X; apply Ne; apply (file_of_inj io); try assumption; discriminate).
    rewrite EP, EQ, EA, EB in *. cbn [run] in Run. destruct (run_step f _) as [f1|] eqn:S1; [|discriminate]. cbn [run_step] in Run. destruct (rename f1 _ _) as [g|] eqn:S2; [|discriminate]. assert (g = f2) by congruence. subst g. clear Run.
    unfold rename in S2. destruct (resolve f1 (abs (pp ++ [ldif_name o]))) as [q1|] eqn:R1; [|discriminate]. destruct (resolve_parent f1 pp _ q1 FA R1) as (-> & D1). cbn [bind] in S2. destruct (resolve f1 (abs (pq ++ [ldif_name n]))) as [q2|] eqn:R2; [|discriminate]. destruct (resolve_parent f1 pq _ q2 FB R2) as (-> & D2). cbn [bind] in S2.
    destruct (try_rename f CF f1 pp (dir_name o) pq (dir_name n) FP FQ Sq S1 D1 D2) as (Rn & C1 & Dp & Dq & NI).
    assert (AQ : ~ inside (pq ++ [dir_name n]) (pp ++ [ldif_name o])).
    { intros I. assert (stat f (pp ++ [ldif_name o]) = None); [|congruence]. apply (below_none f CF (pq ++ [dir_name n])); [rewrite Sq; discriminate|exact I|]. intros X. congruence. }
    assert (AP : ~ inside (pp ++ [dir_name o]) (pp ++ [ldif_name o])) by (intros I; apply same_len_inside in I; now apply dir_not_ldif in I).
    assert (BQ : ~ inside (pq ++ [dir_name n]) (pq ++ [ldif_name n])) by (intros I; apply same_len_inside in I; now apply dir_not_ldif in I).
    assert (SA1 : stat f1 (pp ++ [ldif_name o]) = Some (File c)) by (rewrite (Rn (pp ++ [ldif_name o])), !below_not by assumption; exact SA). rewrite SA1, (path_eqb_ne _ _ AB) in S2.
    assert (SB : stat f1 (pq ++ [ldif_name n]) <> Some Dir) by (intros X; rewrite X in S2; discriminate).
    assert (E2 : f2 = put_node (drop_node f1 (pp ++ [ldif_name o])) (pq ++ [ldif_name n]) (File c)) by (destruct (stat f1 (pq ++ [ldif_name n])) as [[?|]|]; congruence).
    assert (S3 : forall r, stat f2 r = if path_eqb (pq ++ [ldif_name n]) r then Some (File c) else if path_eqb (pp ++ [ldif_name o]) r then None else stat f1 r) by (intros r; subst f2; rewrite stat_put, stat_drop by assumption; reflexivity).
    assert (PA : forall r, stat f1 r = Some Dir -> stat f2 r = Some Dir) by (intros r X; rewrite S3, !path_eqb_ne by congruence; exact X).
    assert (C2 : closed f2).
    { subst f2. apply closed_put; [apply closed_drop; [exact C1|congruence]| |intros _; rewrite stat_drop by assumption; destruct (path_eqb _ _); [discriminate|exact SB]]. rewrite stat_drop, path_eqb_ne by congruence. exact D2. }
    split; [exact C2|]. split; [|split].
    - rewrite (get_abs lower io vio R TR) by exact P. rewrite EA, (read_missing f2 C2 pp (ldif_name o)); [reflexivity|exact FA|now apply PA|]. rewrite S3, path_eqb_refl, path_eqb_ne by congruence. reflexivity.
    - intros x Nx Px. rewrite !(get_abs lower io vio R TR) by (apply Forall_app; split; assumption). destruct x as [|y x]; [congruence|]. cbn [app]. cbn [file_of]. rewrite !dirs_app, <- !app_assoc, (app_assoc R (dirs_of (n :: nd))), (app_assoc R (dirs_of (o :: d))), EP, EQ. inversion Px as [|? ? Py Px']; subst y l.
      assert (X : read_file f2 (abs ((pq ++ [dir_name n]) ++ dirs_of x ++ [ldif_name x0])) = read_file f (abs ((pp ++ [dir_name o]) ++ dirs_of x ++ [ldif_name x0]))); [|exact (f_equal (fun z => bind z (parse_file lower io vio)) X)].
      apply (read_shift f CF f2 C2); try assumption; [apply Forall_app; split; [now apply fname_dirs|constructor; [now apply fname_ldif|constructor]]|now apply PA|]. intros s. rewrite S3.
      rewrite (path_eqb_ne (pq ++ [ldif_name n])) by (intros X; apply BQ; now exists s). rewrite (path_eqb_ne (pp ++ [ldif_name o])) by (intros X; apply AQ; now exists s). rewrite (Rn (_ ++ s)), below_refl, skipn_app, skipn_all, Nat.sub_diag. reflexivity.
    - intros e Pe N1 N2. rewrite !(get_abs lower io vio R TR) by exact Pe. destruct e as [|r e]; [reflexivity|]. destruct (root_app R TR _ (fname_file _ Pe)) as (Nf & Ff). rewrite (read_ext f2 f); [reflexivity|exact Ff|exact Nf|]. intros s t E. assert (In_ : inside s (R ++ file_of (r :: e))) by (now exists t).
      assert (Not : forall m md, plain (m :: md) -> (forall x, r :: e <> x ++ m :: md) -> R ++ file_of (m :: md) <> s).
      { intros m md Pm Nm Es. cbn [file_of] in Es. destruct (file_prefix R _ s Pe In_ _ _ (eq_sym Es)) as [(r' & _ & X)|(X & _)]; [now apply eq_sym, dir_not_ldif in X|]. rewrite <- Es in X. apply app_inv_head in X. apply (Nm []). cbn [app]. symmetry. apply (file_of_inj io); [exact Pm|exact Pe|discriminate|exact X]. }
      rewrite S3, <- EB, <- EA, !path_eqb_ne by (now apply Not). rewrite (Rn s), <- EP, <- EQ.
      assert (Nin : forall m md, plain (m :: md) -> (forall x, r :: e <> x ++ m :: md) -> ~ inside (R ++ dirs_of (m :: md)) s).
      { intros m md Pm Nm (s' & ->). destruct (file_below io R (m :: md) (r :: e) Pm Pe) as (x & X); [|exact (Nm x X)]. destruct In_ as (t' & ->). exists (s' ++ t'). now rewrite app_assoc. }
      rewrite !below_not by (now apply Nin). reflexivity.
  Qed.

  Lemma move_spec depth f (CF : closed f) uuid t newDN f' t' : placed R t -> plain newDN -> part uuid -> (exists e0, get lower io vio f (abs R) (t_dn t) = Ok e0) -> newDN <> t_dn t -> stat f (R ++ dirs_of newDN) = None ->
    (dn_eqb lower (dn_up newDN) (dn_up (t_dn t)) = true -> dn_up newDN = dn_up (t_dn t)) ->
    t_move lower io vio oc depth f uuid t newDN = (f', Ok (t', true)) ->
    t_dn t' = newDN /\ placed R t' /\ closed f' /\
    (exists w, entry_toWire lower oc (t_entry t') = Ok w /\ get lower io vio f' (abs R) newDN = parse_file lower io vio w) /\
    get lower io vio f' (abs R) (t_dn t) = Err ENOENT /\
    (forall x, x <> [] -> plain x -> get lower io vio f' (abs R) (x ++ newDN) = get lower io vio f (abs R) (x ++ t_dn t)) /\
    (forall e, plain e -> (forall x, e <> x ++ newDN) -> (forall x, e <> x ++ t_dn t) -> get lower io vio f' (abs R) e = get lower io vio f (abs R) e) /\
    exists o n e1 e2, hd_error (t_dn t) = Some o /\ hd_error newDN = Some n /\ each_value (remove_av lower) o (t_entry t) = Ok e1 /\ each_value (add_av lower) n e1 = Ok e2 /\ e_attrs (t_entry t') = e_attrs e2.
  Proof.
    intros Pl Pn U G Ne Sq HP Mv. unfold t_move in Mv. destruct (new_parent lower io vio depth f t newDN) as [p|] eqn:Np; [|discriminate]. cbn [bind] in Mv. destruct (move_steps lower t p newDN) as [(s & t1)|] eqn:Ms; [|discriminate].
    destruct (move_dest depth f t newDN p s t1 Pl Pn HP Np Ms) as (o & d & n & nd & e1 & e2 & Et & En & E1 & E2 & Ee & Pl1 & Es). destruct (run f s (Ok tt)) as (f2 & [[]|]) eqn:Run; [|discriminate]. rewrite Et in *. subst newDN s.
    destruct Pl as (_ & P). rewrite Et in P. assert (Ne' : o :: d <> n :: nd) by congruence. destruct (renames f CF o d n nd f2 P Pn Ne' G Sq Run) as (C2 & G1 & G2 & G3).
    destruct Pl1 as (Pp & Pp'). assert (D1 : t_dn t1 = n :: nd) by (unfold t_dn; now rewrite Ee). unfold t_commit in Mv. destruct (endswith (S_ ".dir") (t_path t1)); cbn [negb] in Mv; [|discriminate].
    rewrite Pp, D1, dirs_cons, app_assoc in Mv. unfold dir_name in Mv. rewrite <- abs_ext, chop_app in Mv. destruct (put_entry lower oc uuid _ _) as (s2 & r2) eqn:Pe. destruct (run f2 s2 r2) as (f3 & o3) eqn:Run2. cbn [bind] in Mv. pose proof (f_equal fst Mv) as M1. pose proof (f_equal snd Mv) as M2. cbn [fst snd] in M1, M2. subst f3. apply Ok_inj in M2. pose proof (f_equal fst M2) as M3. pose proof (f_equal snd M2) as M4. cbn [fst snd] in M3, M4. subst t1. destruct o3 as [[]|]; [|discriminate]. clear Mv M2 M4.
    inversion Pn as [|? ? Pnr Pnd]; subst.
    assert (F1 : Forall fname ((R ++ dirs_of nd) ++ [tmp_name (rdn_text n) uuid])).
    { rewrite <- app_assoc. apply (root_app R TR). apply Forall_app. split; [now apply fname_dirs|]. constructor; [|constructor]. apply fname_text; [exact Pnr|]. apply part_app; [now apply part_lit|]. apply part_app; [exact U|now apply part_lit]. }
    assert (F2 : Forall fname ((R ++ dirs_of nd) ++ [rdn_text n ++ S_ ".ldif"])) by (rewrite <- app_assoc; apply (root_app R TR); exact (fname_file _ Pn)).
    pose proof (run_put_ok lower oc f2 C2 uuid (R ++ dirs_of nd) (rdn_text n) (t_entry t') f' F1 F2) as Hp. rewrite Pe in Hp. destruct (Hp Run2) as (w & W & C' & St). rewrite <- !app_assoc in St. destruct (get_stored lower io vio R TR f2 f' uuid n nd w C' Pn St) as (H1 & H2).
    split; [exact D1|]. split; [split; assumption|]. split; [exact C'|]. split; [now exists w|]. split; [|split; [|split]].
    - rewrite H2 by assumption. exact G1.
    - intros x Nx Px. rewrite H2; [now apply G2|apply Forall_app; now split|]. intros X. apply (f_equal (@length _)) in X. rewrite app_length in X. destruct x; [congruence|cbn in X; lia].
    - intros e Pe' N1 N2. rewrite H2; [now apply G3|exact Pe'|exact (N1 [])].
    - exists o, n, e1, e2. rewrite Ee. cbn [e_attrs hd_error]. auto.
  Qed.
End Move.
