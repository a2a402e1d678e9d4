(** Facts about the file system. *)
From Verif Require Import Base BaseFacts Utf8Model DnModel DnSpec DnProofs EntryModel LdifModel InmemModel InmemSpec FsModel LdifTreeModel LdifTreeSpec.

Lemma path_eqb_spec p q : Bool.reflect (p = q) (path_eqb p q).
Proof.
  unfold path_eqb. revert q. induction p as [|x p IH]; intros [|y q]; cbn [list_eqb]; try (constructor; congruence).
  destruct (str_eqb_spec x y) as [->|N]; cbn [andb]; [|constructor; congruence]. destruct (IH q) as [->|N]; constructor; congruence.
Qed.
Lemma path_eqb_refl p : path_eqb p p = true. Proof. destruct (path_eqb_spec p p); congruence. Qed.
Lemma path_eqb_ne p q : p <> q -> path_eqb p q = false. Proof. destruct (path_eqb_spec p q); congruence. Qed.

Lemma stat_in f p : p <> [] -> stat f p <> None <-> exists n, In (p, n) f.
Proof.
  intros N. unfold stat. destruct p as [|x p]; [congruence|]. split.
  - destruct (find _ f) as [(q & n)|] eqn:E; [|cbn; congruence]. intros _. apply find_some in E as (I & E). cbn [fst] in E. destruct (path_eqb_spec q (x :: p)) as [->|]; [|discriminate]. eauto.
  - intros (n & I). destruct (find _ f) as [(q & m)|] eqn:E; [discriminate|]. pose proof (find_none _ _ E (x :: p, n) I) as H. cbn [fst] in H. now rewrite path_eqb_refl in H.
Qed.
Lemma find_filter_ne f p q : p <> q -> find (fun x : path * node => path_eqb (fst x) q) (drop_node f p) = find (fun x => path_eqb (fst x) q) f.
Proof.
  intros N. unfold drop_node. induction f as [|(x & n) f IH]; [reflexivity|]. cbn [List.filter fst]. destruct (path_eqb_spec x p) as [->|E]; cbn [negb].
  - cbn [find fst]. rewrite (path_eqb_ne p q N). exact IH.
  - cbn [find fst]. destruct (path_eqb x q); [reflexivity|exact IH].
Qed.
Lemma find_drop f p : find (fun x : path * node => path_eqb (fst x) p) (drop_node f p) = None.
Proof.
  unfold drop_node. induction f as [|(x & n) f IH]; [reflexivity|]. cbn [List.filter fst]. destruct (path_eqb_spec x p) as [->|E]; cbn [negb]; [exact IH|]. cbn [find fst]. now rewrite (path_eqb_ne x p E).
Qed.
Lemma find_app {A} (g : A -> bool) l m : find g (l ++ m) = match find g l with Some x => Some x | None => find g m end.
Proof. induction l as [|x l IH]; [reflexivity|]. cbn [app find]. destruct (g x); [reflexivity|exact IH]. Qed.
Lemma stat_drop f p q : p <> [] -> stat (drop_node f p) q = if path_eqb p q then None else stat f q.
Proof.
  intros N. destruct (path_eqb_spec p q) as [<-|E]; unfold stat; [destruct p; [congruence|]; now rewrite find_drop|]. destruct q; [reflexivity|]. now rewrite find_filter_ne.
Qed.
Lemma stat_put f p n q : p <> [] -> stat (put_node f p n) q = if path_eqb p q then Some n else stat f q.
Proof.
  intros N. unfold put_node. destruct (path_eqb_spec p q) as [<-|E]; unfold stat.
  - destruct p as [|x p]; [congruence|]. rewrite find_app, find_drop. cbn [find fst]. now rewrite path_eqb_refl.
  - destruct q; [reflexivity|]. rewrite find_app, find_filter_ne by exact E. destruct (find _ f); [reflexivity|]. cbn [find fst]. now rewrite (path_eqb_ne p _ E).
Qed.
Lemma names_in_spec f p n : In n (names_in f p) <-> stat f (p ++ [n]) <> None.
Proof.
  rewrite stat_in by (destruct p; discriminate). unfold names_in. rewrite in_flat_map. split.
  - intros ((q & m) & I & J). cbn [fst] in J. destruct q as [|y q]; [destruct J|]. destruct (path_eqb_spec (removelast (y :: q)) p) as [<-|]; [|destruct J]. destruct J as [<-|[]]. exists m.
    rewrite <- app_removelast_last; [exact I|discriminate].
  - intros (m & I). exists (p ++ [n], m). split; [exact I|]. cbn [fst]. destruct (p ++ [n]) as [|y q] eqn:E; [destruct p; discriminate|]. rewrite <- E, removelast_last, path_eqb_refl, last_last. now left.
Qed.

(** ** Paths *)
Lemma split_slash_name n s : ~ In 47 n -> split_slash (n ++ 47 :: s) = n :: split_slash s.
Proof. induction n as [|c n IH]; intros N; [reflexivity|]. cbn [app split_slash]. destruct (Z.eqb_spec c 47) as [->|_]; [destruct N; now left|]. rewrite IH; [reflexivity|]. intros J. apply N. now right. Qed.
Lemma split_slash_last n : ~ In 47 n -> split_slash n = [n].
Proof. induction n as [|c n IH]; intros N; [reflexivity|]. cbn [split_slash]. destruct (Z.eqb_spec c 47) as [->|_]; [destruct N; now left|]. rewrite IH; [reflexivity|]. intros J. apply N. now right. Qed.
Lemma split_abs p : Forall fname p -> split_slash (abs p) = match p with [] => [[]] | _ => [] :: p end.
Proof.
  destruct p as [|n p]; [reflexivity|]. intros F. unfold abs. cbn [map concat app split_slash]. change (47 =? 47) with true. cbv iota. f_equal. revert n F. induction p as [|m p IH]; intros n F.
  - cbn [map concat]. rewrite app_nil_r. apply split_slash_last. apply Forall_inv in F. apply F.
  - cbn [map concat app]. rewrite split_slash_name by (apply Forall_inv in F; apply F). f_equal. apply IH. now apply Forall_inv_tail in F.
Qed.
Lemma abs_app p q : abs (p ++ q) = abs p ++ abs q.
Proof. unfold abs. now rewrite map_app, concat_app. Qed.
Lemma abs_nul p : Forall fname p -> existsb (Z.eqb 0) (abs p) = false.
Proof.
  induction 1 as [|n p (_ & _ & H & _) F IH]; [reflexivity|]. change (abs (n :: p)) with (47 :: n ++ abs p). cbn [existsb]. change (0 =? 47) with false. cbn [orb]. rewrite existsb_app, IH, Bool.orb_false_r.
  destruct (existsb (Z.eqb 0) n) eqn:E; [|reflexivity]. apply existsb_exists in E as (x & I & X). apply Z.eqb_eq in X. subst x. now destruct H.
Qed.
Lemma resolve_abs f p : Forall fname p -> p <> [] -> resolve f (abs p) = walk_to f [] p.
Proof.
  intros F N. unfold resolve. rewrite abs_nul by exact F. destruct (abs p) as [|c s] eqn:E; [destruct p; [congruence|discriminate]|]. rewrite <- E, split_abs by exact F. destruct p; [congruence|]. reflexivity.
Qed.
Lemma walk_cons f cur c r : fname c -> walk_to f cur (c :: r) = match stat f cur with None => Err ENOENT | Some (File _) => Err ENOTDIR | Some Dir => walk_to f (cur ++ [c]) r end.
Proof.
  intros (N & _ & _ & D1 & D2). cbn [walk_to]. destruct (stat f cur) as [[b|]|]; try reflexivity. destruct (str_eqb_spec c []); [congruence|]. destruct (str_eqb_spec c (S_ ".")); [congruence|]. destruct (str_eqb_spec c (S_ "..")); [congruence|]. reflexivity.
Qed.
Lemma walk_result f : forall r cur q, Forall fname r -> walk_to f cur r = Ok q -> q = cur ++ r.
Proof.
  induction r as [|c r IH]; intros cur q F; [intros [= <-]; now rewrite app_nil_r|]. inversion F; subst. rewrite walk_cons by assumption. destruct (stat f cur) as [[b|]|]; try discriminate. intros E. apply IH in E; [|assumption]. now rewrite E, <- app_assoc.
Qed.
(** Only what is on the way matters. *)
Lemma walk_ext f g : forall r cur, Forall fname r -> (forall s t, r = s ++ t -> t <> [] -> stat f (cur ++ s) = stat g (cur ++ s)) -> walk_to f cur r = walk_to g cur r.
Proof.
  induction r as [|c r IH]; intros cur F H; [reflexivity|]. inversion F; subst. rewrite !walk_cons by assumption. pose proof (H [] (c :: r) eq_refl ltac:(discriminate)) as H0. rewrite app_nil_r in H0. rewrite H0.
  destruct (stat g cur) as [[b|]|]; try reflexivity. apply IH; [assumption|]. intros s t E N. rewrite <- app_assoc. apply (H (c :: s) t); [now rewrite E|exact N].
Qed.
Lemma closed_up f (CF : closed f) : forall s p, stat f (p ++ s) <> None -> s <> [] -> stat f p = Some Dir.
Proof.
  induction s as [|n s IH] using rev_ind; intros p H N; [congruence|]. rewrite app_assoc in H. apply CF in H. destruct s as [|m s]; [now rewrite app_nil_r in H|]. apply IH; [rewrite H; discriminate|discriminate].
Qed.
Lemma walk_there f (CF : closed f) p : Forall fname p -> stat f p <> None -> walk_to f [] p = Ok p.
Proof.
  intros F H. cut (forall r cur, Forall fname r -> stat f (cur ++ r) <> None -> walk_to f cur r = Ok (cur ++ r)); [intros G; exact (G p [] F H)|].
  induction r as [|c r IH]; intros cur Fr Hr; [cbn [walk_to]; now rewrite app_nil_r|]. inversion Fr; subst. rewrite walk_cons by assumption. rewrite (closed_up f CF (c :: r) cur Hr ltac:(discriminate)).
  rewrite IH; [now rewrite <- app_assoc|assumption|now rewrite <- app_assoc].
Qed.
Lemma walk_err f : forall r cur x, Forall fname r -> walk_to f cur r = Err x -> x = ENOENT \/ x = ENOTDIR.
Proof.
  induction r as [|c r IH]; intros cur x F; [discriminate|]. inversion F; subst. rewrite walk_cons by assumption. destruct (stat f cur) as [[b|]|]; [intros [= <-]; auto|now apply IH|intros [= <-]; auto].
Qed.
Lemma look_abs f (CF : closed f) p : Forall fname p -> p <> [] -> look f (abs p) = stat f p.
Proof.
  intros F N. unfold look. rewrite resolve_abs by assumption. destruct (walk_to f [] p) as [q|x] eqn:E; [apply walk_result in E; [now subst|exact F]|].
  destruct (stat f p) eqn:S; [|reflexivity]. rewrite walk_there in E; [discriminate|exact CF|exact F|congruence].
Qed.
Lemma resolve_child f (CF : closed f) p n : Forall fname (p ++ [n]) -> stat f p = Some Dir -> resolve f (abs (p ++ [n])) = Ok (p ++ [n]).
Proof.
  intros F D. rewrite resolve_abs; [|exact F|destruct p; discriminate]. apply Forall_app in F as (Fp & Fn). inversion Fn; subst.
  cut (forall r cur, Forall fname r -> stat f (cur ++ r) = Some Dir -> walk_to f cur (r ++ [n]) = Ok (cur ++ r ++ [n])); [intros G; exact (G p [] Fp D)|].
  induction r as [|c r IH]; intros cur Fr Hr; cbn [app]; rewrite walk_cons; try assumption; [rewrite app_nil_r in Hr; now rewrite Hr| |now inversion Fr].
  rewrite (closed_up f CF (c :: r) cur ltac:(congruence) ltac:(discriminate)). inversion Fr; subst. rewrite IH; [now rewrite <- app_assoc|assumption|now rewrite <- app_assoc].
Qed.
Lemma read_abs f (CF : closed f) p : Forall fname p -> p <> [] ->
  match stat f p with
  | Some (File b) => read_file f (abs p) = Ok b
  | Some Dir => read_file f (abs p) = Err EISDIR
  | None => read_file f (abs p) = Err ENOENT \/ read_file f (abs p) = Err ENOTDIR
  end.
Proof.
  intros F N. unfold read_file. rewrite resolve_abs by assumption. destruct (stat f p) as [nd|] eqn:S.
  - rewrite walk_there by (try assumption; congruence). cbn [bind]. rewrite S. destruct nd; reflexivity.
  - destruct (walk_to f [] p) as [q|x] eqn:E; cbn [bind]; [apply walk_result in E; [|exact F]; subst q; cbn [app]; rewrite S; auto|]. apply walk_err in E as [->| ->]; auto.
Qed.
Lemma read_missing f (CF : closed f) p n : Forall fname (p ++ [n]) -> stat f p = Some Dir -> stat f (p ++ [n]) = None -> read_file f (abs (p ++ [n])) = Err ENOENT.
Proof. intros F D S. unfold read_file. rewrite resolve_child by assumption. cbn [bind]. now rewrite S. Qed.
Lemma read_ext f g p : Forall fname p -> p <> [] -> (forall s t, p = s ++ t -> stat f s = stat g s) -> read_file f (abs p) = read_file g (abs p).
Proof.
  intros F N H. unfold read_file. rewrite !resolve_abs by assumption. rewrite (walk_ext f g p [] F) by (intros s t E _; exact (H s t E)). destruct (walk_to g [] p) as [q|] eqn:E; [|reflexivity].
  apply walk_result in E; [|exact F]. cbn [app] in E. subst q. cbn [bind]. rewrite (H p []); [reflexivity|now rewrite app_nil_r].
Qed.
Lemma closed_put f p n nd : closed f -> stat f p = Some Dir -> (nd <> Dir -> stat f (p ++ [n]) <> Some Dir) -> closed (put_node f (p ++ [n]) nd).
Proof.
  intros CF D H q m. assert (N : p ++ [n] <> []) by (destruct p; discriminate). rewrite !stat_put by exact N. destruct (path_eqb_spec (p ++ [n]) (q ++ [m])) as [E|E].
  - apply app_inj_tail in E as (<- & <-). intros _. destruct (path_eqb_spec (p ++ [n]) p) as [X|X]; [|exact D]. apply (f_equal (@length str)) in X. rewrite app_length in X. cbn in X. lia.
  - intros J. apply CF in J. destruct (path_eqb_spec (p ++ [n]) q) as [<-|X]; [|exact J]. destruct nd; [|reflexivity]. exfalso. apply H; [discriminate|exact J].
Qed.
Lemma closed_drop f p n : closed f -> stat f (p ++ [n]) <> Some Dir -> closed (drop_node f (p ++ [n])).
Proof.
  intros CF H q m. assert (N : p ++ [n] <> []) by (destruct p; discriminate). rewrite !stat_drop by exact N. destruct (path_eqb_spec (p ++ [n]) (q ++ [m])) as [E|E]; [congruence|].
  intros J. apply CF in J. destruct (path_eqb_spec (p ++ [n]) q) as [<-|X]; [|exact J]. now destruct H.
Qed.

Lemma walk_app f : forall l cur q r, Forall fname l -> walk_to f cur l = Ok q -> walk_to f cur (l ++ r) = walk_to f (cur ++ l) r.
Proof.
  induction l as [|c l IH]; intros cur q r F; [intros _; cbn [app]; now rewrite app_nil_r|]. cbn [app]. inversion F; subst. rewrite !walk_cons by assumption. destruct (stat f cur) as [[b|]|]; try discriminate. intros Q.
  rewrite (IH _ _ r ltac:(assumption) Q). now rewrite <- app_assoc.
Qed.
(** Making a directory changes nothing that can be read. *)
Lemma mkdir_read f (CF : closed f) p n g : Forall fname g -> Forall fname (p ++ [n]) -> g <> p ++ [n] -> stat f p = Some Dir -> stat f (p ++ [n]) = None ->
  read_file (put_node f (p ++ [n]) Dir) (abs g) = read_file f (abs g).
Proof.
  intros F Fp Ng D S. set (pd := p ++ [n]) in *. assert (Npd : pd <> []) by (unfold pd; destruct p; discriminate). destruct g as [|g0 g']; [reflexivity|]. set (g := g0 :: g') in *.
  assert (CF' : closed (put_node f pd Dir)) by (apply closed_put; [exact CF|exact D|congruence]).
  destruct (List.list_eq_dec (List.list_eq_dec Z.eq_dec) (firstn (length pd) g) pd) as [E|E].
  - assert (X : exists m t, g = pd ++ m :: t). { destruct (skipn (length pd) g) as [|m t] eqn:K; [|exists m, t; rewrite <- E at 1; rewrite <- K; symmetry; apply firstn_skipn]. destruct Ng. rewrite <- (firstn_skipn (length pd) g), E, K. apply app_nil_r. }
    destruct X as (m & t & Eg).
    assert (Sg : forall fx, closed fx -> stat fx (pd ++ [m]) = None -> stat fx g = None).
    { intros fx Cx Sx. destruct (stat fx g) eqn:K; [|reflexivity]. destruct t as [|m' t]; [rewrite Eg in K; congruence|].
      assert (Z0 : stat fx (pd ++ [m]) = Some Dir) by (apply (closed_up fx Cx (m' :: t)); [rewrite <- app_assoc; cbn [app]; rewrite <- Eg; congruence|discriminate]). congruence. }
    assert (S1 : stat f (pd ++ [m]) = None) by (destruct (stat f (pd ++ [m])) eqn:K; [|reflexivity]; assert (Z0 : stat f pd = Some Dir) by (apply CF with (n := m); congruence); congruence).
    assert (S2 : stat (put_node f pd Dir) (pd ++ [m]) = None) by (rewrite stat_put by exact Npd; destruct (path_eqb_spec pd (pd ++ [m])) as [X|X]; [apply (f_equal (@length str)) in X; rewrite app_length in X; cbn in X; lia|exact S1]).
    assert (W : forall fx r, closed fx -> Forall fname (pd ++ r) -> stat fx p = Some Dir -> walk_to fx [] (pd ++ r) = walk_to fx pd r).
    { intros fx r Cx Fx Dx. pose proof (resolve_child fx Cx p n Fp Dx) as Hr. rewrite resolve_abs in Hr by assumption. exact (walk_app fx pd [] _ r Fp Hr). }
    assert (Fm : fname m /\ Forall fname t) by (rewrite Eg in F; apply Forall_app in F as (_ & F); inversion F; auto).
    assert (R1 : read_file f (abs g) = Err ENOENT).
    { unfold read_file. rewrite resolve_abs by (try assumption; discriminate). rewrite Eg at 1. rewrite W by (try assumption; now rewrite <- Eg). rewrite walk_cons by apply Fm. now rewrite S. }
    assert (D' : stat (put_node f pd Dir) p = Some Dir) by (rewrite stat_put by exact Npd; now destruct (path_eqb pd p)).
    rewrite R1. unfold read_file. rewrite resolve_abs by (try assumption; discriminate). rewrite Eg at 1. rewrite W by (try assumption; now rewrite <- Eg). rewrite walk_cons by apply Fm.
    rewrite stat_put at 1 by exact Npd. rewrite path_eqb_refl. destruct t as [|m' t]; [cbn [walk_to bind]; now rewrite S2|]. rewrite walk_cons by (exact (Forall_inv (proj2 Fm))). now rewrite S2.
  - apply read_ext; [exact F|discriminate|]. intros s t Es. rewrite stat_put by exact Npd. destruct (path_eqb_spec pd s) as [<-|]; [|reflexivity]. destruct E. rewrite Es. now rewrite firstn_app, Nat.sub_diag, firstn_all, firstn_O, app_nil_r.
Qed.

Lemma enoent_or {A} (P : res A -> Prop) (x : exn) (u : res A) : P u -> P (Err x) -> P (match x with EUser 60 => u | y => Err y end).
Proof. intros U V. destruct x; try exact V. repeat match goal with |- P (match ?n with _ => _ end) => destruct n; try exact V; try exact U end. Qed.
Lemma enoent_or' {A} (P : res A -> Prop) (x : exn) (u : res A) : P u -> P (Err x) -> P (match (Err x : res A) with Err (EUser 60) => u | y => y end).
Proof. intros U V. destruct x; try exact V. repeat match goal with |- P (match ?n with _ => _ end) => destruct n; try exact V; try exact U end. Qed.
