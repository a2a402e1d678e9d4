(** Storing an entry: names, paths, crashes. *)
From Verif Require Import Base BaseFacts Utf8Model DnModel DnSpec DnProofs EntryModel LdifModel LdifSpec LdifProofs LdifRound InmemModel InmemSpec FsModel LdifTreeModel LdifTreeSpec FsProofs.

(** ** The text of RDNs *)
Lemma escape_char_in c x : 0 <= c -> In x (escape_char c) -> x = 92 \/ (x = c /\ 0 < c) \/ (c <= 31 /\ 48 <= x).
Proof.
  intros P. unfold escape_char. destruct (zin c escapedChars) eqn:Z.
  - intros [<-|[<-|[]]]; [now left|]. right. left. split; [reflexivity|]. apply zin_In in Z. assert (Q : forallb (fun y => 0 <? y) escapedChars = true) by reflexivity. rewrite forallb_forall in Q. specialize (Q _ Z). lia.
  - destruct (Z.leb_spec c 31); [|intros [<-|[]]; right; left; split; [reflexivity|lia]]. intros [<-|[<-|[<-|[]]]]; [now left| |]; right; right; (split; [assumption|]); unfold hex_upper.
    + assert (0 <= c / 16) by (apply Z.div_pos; lia). destruct (Z.ltb_spec (c / 16) 10); lia.
    + assert (0 <= c mod 16) by (apply Z.mod_pos_bound; lia). destruct (Z.ltb_spec (c mod 16) 10); lia.
Qed.
Lemma escape_part s : text s -> ~ In 47 s -> part (escape s).
Proof.
  intros T N. destruct (escape_parts s) as (a & m & b & E & -> & Ea & Eb & _).
  assert (M : forall x, In x (flat_map escape_char m) -> x <> 47 /\ x <> 0).
  { intros x I. apply in_flat_map in I as (c & I & J). assert (Ic : In c s) by (rewrite E, !in_app_iff; auto). unfold text in T. rewrite Forall_forall in T. specialize (T _ Ic). cbn beta in T. apply escape_char_in in J; [|exact T].
    destruct J as [->|[(-> & J)|(_ & J)]]; [lia| |lia]. split; [|lia]. intros ->. exact (N Ic). }
  assert (X : forall x, In x (esc_end a ++ flat_map escape_char m ++ esc_end b) -> x <> 47 /\ x <> 0).
  { assert (Ends : forall a x, is_end a -> In x (esc_end a) -> x <> 47 /\ x <> 0).
    { intros a0 x [->|(c & I & ->)] J; [destruct J|]. assert (Q : forallb (fun y => (0 <? y) && negb (y =? 47)) escapedEnds = true) by reflexivity. rewrite forallb_forall in Q. specialize (Q _ I). destruct J as [<-|[<-|[]]]; unfold c_bs; lia. }
    intros x. rewrite !in_app_iff. intros [I|[I|I]]; eauto. }
  split; intros I; apply X in I; lia.
Qed.
Lemma part_app a b : part a -> part b -> part (a ++ b).
Proof. intros (A1 & A2) (B1 & B2). split; rewrite in_app_iff; tauto. Qed.
Lemma part_lit s : forallb (fun c => negb (c =? 47) && negb (c =? 0)) s = true -> part s.
Proof. rewrite forallb_forall. intros H. split; intros I; apply H in I; lia. Qed.
Lemma rdn_text_part r : plain_rdn r -> part (rdn_text r).
Proof.
  intros (_ & O & S). unfold rdn_text. induction r as [|a r IH]; [split; intros []|]. inversion O as [|? ? Oa Or]; inversion S as [|? ? Sa Sr]; subst.
  assert (P : part (atv_text a)).
  { rewrite atv_text_eq. destruct Oa as (T1 & _ & T2). destruct Sa as (S1 & S2). change (c_eq :: escape (a_value a)) with ([c_eq] ++ escape (a_value a)). apply part_app; [now apply escape_part|]. apply part_app; [now apply part_lit|now apply escape_part]. }
  cbn [map join]. destruct (map atv_text r) eqn:E; [exact P|]. apply part_app; [exact P|]. apply part_app; [now apply part_lit|]. rewrite <- E in *. now apply IH.
Qed.
Lemma rdn_text_eqsign r : r <> [] -> In 61 (rdn_text r).
Proof.
  destruct r as [|a r]; [congruence|]. intros _. unfold rdn_text. cbn [map join]. assert (I : In 61 (atv_text a)) by (rewrite atv_text_eq; apply in_or_app; right; now left).
  destruct (map atv_text r); [exact I|]. apply in_or_app. now left.
Qed.
Lemma rdn_text_inj (io : Z -> Z -> res Z) a b : plain_rdn a -> plain_rdn b -> rdn_text a = rdn_text b -> a = b.
Proof. intros (_ & Oa & _) (_ & Ob & _) E. pose proof (parse_rdn_text io a Oa) as A. pose proof (parse_rdn_text io b Ob) as B. rewrite E in A. congruence. Qed.
Lemma fname_ext t s : part t -> In 61 t -> part s -> fname (t ++ s).
Proof.
  intros (P1 & P2) I (Q1 & Q2). repeat split; try (rewrite in_app_iff; tauto); intros E.
  - destruct t; [destruct I|discriminate].
  - assert (J : In 61 (S_ ".")) by (rewrite <- E; apply in_or_app; now left). destruct J as [J|[]]. discriminate J.
  - assert (J : In 61 (S_ "..")) by (rewrite <- E; apply in_or_app; now left). destruct J as [J|[J|[]]]; discriminate J.
Qed.
Lemma fname_text r s : plain_rdn r -> part s -> fname (rdn_text r ++ s).
Proof. intros P Q. apply fname_ext; [now apply rdn_text_part|apply rdn_text_eqsign, P|exact Q]. Qed.
Lemma fname_dir r : plain_rdn r -> fname (dir_name r). Proof. intros P. apply fname_text; [exact P|now apply part_lit]. Qed.
Lemma fname_ldif r : plain_rdn r -> fname (ldif_name r). Proof. intros P. apply fname_text; [exact P|now apply part_lit]. Qed.

(** ** Paths *)
Lemma abs_last p n : fname n -> last (abs (p ++ [n])) 0 <> 47.
Proof.
  intros (N & S & _). rewrite abs_app. unfold abs at 2. cbn [map concat]. rewrite app_nil_r. destruct (exists_last N) as (n' & c & E). rewrite E. replace (abs p ++ 47 :: n' ++ [c]) with ((abs p ++ 47 :: n') ++ [c]) by (now rewrite <- app_assoc).
  rewrite last_last. intros ->. apply S. rewrite E, in_app_iff. right. now left.
Qed.
Lemma pjoin_abs p n : p <> [] -> Forall fname p -> fname n -> pjoin (abs p) n = abs (p ++ [n]).
Proof.
  intros N F (Nn & Sn & _). rewrite abs_app. unfold abs at 3. cbn [map concat]. rewrite app_nil_r. destruct (exists_last N) as (p' & m & E). assert (L : last (abs p) 0 <> 47) by (rewrite E in F |- *; apply Forall_app in F as (_ & F); apply abs_last; now inversion F).
  assert (Na : str_eqb (abs p) [] = false) by (destruct (str_eqb_spec (abs p) []) as [X|]; [|reflexivity]; rewrite E, abs_app in X; destruct (abs p'); discriminate).
  unfold pjoin. destruct n as [|c n]; [congruence|]. destruct (Z.eqb_spec c 47) as [->|_]; [destruct Sn; now left|]. rewrite Na. cbn [orb]. destruct (Z.eqb_spec (last (abs p) 0) 47); [congruence|]. reflexivity.
Qed.
Lemma fold_pjoin l : forall p, p <> [] -> Forall fname p -> Forall fname l -> fold_left pjoin l (abs p) = abs (p ++ l).
Proof.
  induction l as [|n l IH]; intros p N F Fl; [cbn [fold_left]; now rewrite app_nil_r|]. inversion Fl; subst. cbn [fold_left]. rewrite pjoin_abs by assumption. rewrite IH; [now rewrite <- app_assoc|destruct p; discriminate|apply Forall_app; auto|assumption].
Qed.
Lemma abs_ext p t s : abs (p ++ [t]) ++ s = abs (p ++ [t ++ s]).
Proof. rewrite !abs_app. unfold abs at 2 4. cbn [map concat]. rewrite !app_nil_r. now rewrite <- app_assoc. Qed.
Lemma fname_dirs d : plain d -> Forall fname (dirs_of d).
Proof. intros P. unfold dirs_of. apply Forall_forall. intros n I. apply in_map_iff in I as (r & <- & I). apply fname_dir. unfold plain in P. rewrite Forall_forall in P. apply P. now apply in_rev. Qed.
Lemma fname_file d : plain d -> Forall fname (file_of d).
Proof. destruct d as [|r p]; [constructor|]. intros P. inversion P; subst. cbn [file_of]. apply Forall_app. split; [now apply fname_dirs|]. constructor; [now apply fname_ldif|constructor]. Qed.
Lemma dirs_cons r d : dirs_of (r :: d) = dirs_of d ++ [dir_name r].
Proof. unfold dirs_of. cbn [rev]. now rewrite map_app. Qed.
Lemma endswith_app t s : endswith t (s ++ t) = true.
Proof. unfold endswith. rewrite app_length. replace (length s + length t - length t)%nat with (length s) by lia. rewrite skipn_app, skipn_all, Nat.sub_diag. cbn [app skipn]. rewrite str_eqb_refl. cbn [andb]. apply Nat.leb_le. lia. Qed.
Lemma chop_app t s : chop t (s ++ t) = s.
Proof. unfold chop. rewrite app_length. replace (length s + length t - length t)%nat with (length s) by lia. now rewrite firstn_app, firstn_all, Nat.sub_diag, firstn_O, app_nil_r. Qed.

Lemma ends_differ (a b s t : str) : length s = length t -> a ++ s = b ++ t -> s = t.
Proof. intros L E. assert (La : length a = length b) by (apply (f_equal (@length Z)) in E; rewrite !app_length in E; lia). apply (f_equal (skipn (length a))) in E. rewrite skipn_app, skipn_all, Nat.sub_diag in E. rewrite La, skipn_app, skipn_all, Nat.sub_diag in E. exact E. Qed.
Definition tmp_name (t uuid : str) : str := t ++ S_ "." ++ uuid ++ S_ ".tmp".
(** ** Storing *)
Definition tmp_only (f f' : fs) (tmp : path) : Prop := forall q, q <> tmp -> stat f' q = stat f q.
Definition stored (f f' : fs) (tmp file : path) (w : bytes) : Prop :=
  stat f' file = Some (File w) /\ stat f' tmp = None /\ forall q, q <> tmp -> q <> file -> stat f' q = stat f q.

Lemma walk_parent f n q : forall p cur, Forall fname (p ++ [n]) -> walk_to f cur (p ++ [n]) = Ok q -> stat f (cur ++ p) = Some Dir.
Proof.
  induction p as [|c p IH]; intros cur F; cbn [app] in *; inversion F; subst; rewrite walk_cons by assumption.
  - rewrite app_nil_r. destruct (stat f cur) as [[b|]|]; try discriminate. reflexivity.
  - destruct (stat f cur) as [[b|]|]; try discriminate. intros E. apply IH in E; [|assumption]. now rewrite <- app_assoc in E.
Qed.
Lemma resolve_parent f p n q : Forall fname (p ++ [n]) -> resolve f (abs (p ++ [n])) = Ok q -> q = p ++ [n] /\ stat f p = Some Dir.
Proof.
  intros F E. rewrite resolve_abs in E; [|exact F|destruct p; discriminate]. split; [apply walk_result in E; [exact E|exact F]|exact (walk_parent f n q p [] F E)].
Qed.

Lemma put_entry_abs lower oc uuid dd t e : put_entry lower oc uuid (abs (dd ++ [t])) e =
  let tmp := abs (dd ++ [tmp_name t uuid]) in
  match entry_toWire lower oc e with
  | Ok w => ([SCreate tmp; SWrite tmp w; SRename tmp (abs (dd ++ [t ++ S_ ".ldif"]))], Ok tt)
  | Err x => ([SCreate tmp], Err x)
  end.
Proof. unfold put_entry. now rewrite !abs_ext. Qed.

Lemma crash_put lower oc f (CF : closed f) uuid dd t e f' : Forall fname (dd ++ [tmp_name t uuid]) -> Forall fname (dd ++ [t ++ S_ ".ldif"]) ->
  let (steps, r) := put_entry lower oc uuid (abs (dd ++ [t])) e in
  crash f steps f' -> closed f' /\
  ((tmp_only f f' (dd ++ [tmp_name t uuid])) \/
   (exists w, entry_toWire lower oc e = Ok w /\ stored f f' (dd ++ [tmp_name t uuid]) (dd ++ [t ++ S_ ".ldif"]) w /\ run f steps r = (f', Ok tt))).
Proof.
  intros Ft Ff. rewrite put_entry_abs. cbv zeta. set (tmp := dd ++ [tmp_name t uuid]) in *. set (file := dd ++ [t ++ S_ ".ldif"]) in *.
  assert (Nt : tmp <> []) by (unfold tmp; destruct dd; discriminate). assert (Nf : file <> []) by (unfold file; destruct dd; discriminate).
  assert (Ntf : tmp <> file).
  { unfold tmp, file. intros E. apply app_inj_tail in E as (_ & E). unfold tmp_name in E. apply app_inv_head in E. change (S_ ".ldif") with (S_ "." ++ S_ "ldif") in E. apply app_inv_head in E. destruct uuid as [|c0 [|c1 u]]; [discriminate|discriminate|]. apply (f_equal (@rev Z)) in E. cbn [rev app] in E. rewrite rev_app_distr in E. discriminate. }
  assert (Create : forall f1, create f (abs tmp) = Ok f1 -> stat f dd = Some Dir /\ stat f tmp <> Some Dir /\ f1 = put_node f tmp (File []) /\ closed f1).
  { intros f1. unfold create. destruct (resolve f (abs tmp)) as [q|x] eqn:Rs; cbn [bind]; [|discriminate]. destruct (resolve_parent f dd _ q Ft Rs) as (-> & D). fold tmp. intros C. assert (NotDir : stat f tmp <> Some Dir) by (intros X; rewrite X in C; discriminate).
    assert (Ef : f1 = put_node f tmp (File [])) by (destruct (stat f tmp) as [[b|]|]; congruence). split; [exact D|]. split; [exact NotDir|]. split; [exact Ef|]. subst f1. apply closed_put; [exact CF|exact D|intros _; exact NotDir]. }
  assert (Append : forall f1 b f2, create f (abs tmp) = Ok f1 -> append f1 (abs tmp) b = Ok f2 -> closed f2 /\ tmp_only f f2 tmp /\ stat f2 tmp = Some (File b) /\ stat f2 dd = Some Dir).
  { intros f1 b f2 C A. destruct (Create f1 C) as (D & ND & E1 & C1). assert (Dn : tmp <> dd) by (unfold tmp; intros X; apply (f_equal (@length str)) in X; rewrite app_length in X; cbn in X; lia).
    assert (D1 : stat f1 dd = Some Dir) by (rewrite E1, stat_put, path_eqb_ne by assumption; exact D). unfold append in A. unfold tmp in A at 1. rewrite resolve_child in A; [|exact C1|exact Ft|exact D1]. fold tmp in A. cbn [bind] in A.
    assert (S1 : stat f1 tmp = Some (File [])) by (rewrite E1, stat_put, path_eqb_refl by assumption; reflexivity). rewrite S1 in A. cbn [app] in A. apply Ok_inj in A. subst f2. split; [|split; [|split]].
    - apply closed_put; [exact C1|exact D1|intros _; fold tmp; congruence].
    - intros q Nq. rewrite stat_put, path_eqb_ne by congruence. rewrite E1, stat_put, path_eqb_ne by congruence. reflexivity.
    - rewrite stat_put, path_eqb_refl by assumption. reflexivity.
    - rewrite stat_put, path_eqb_ne by assumption. exact D1. }
  assert (Only1 : forall f1, create f (abs tmp) = Ok f1 -> closed f1 /\ tmp_only f f1 tmp).
  { intros f1 C. destruct (Create f1 C) as (_ & _ & E1 & C1). split; [exact C1|]. intros q Nq. rewrite E1, stat_put, path_eqb_ne by congruence. reflexivity. }
  destruct (entry_toWire lower oc e) as [w|x].
  2:{ intros Cr. inversion Cr as [| |? ? ? f1 ? C1 C2]; subst; [split; [exact CF|left; intros q _; reflexivity]|]. cbn [run_step] in C1. inversion C2; subst. destruct (Only1 _ C1). split; [assumption|now left]. }
  intros Cr. inversion Cr as [| |? ? ? f1 ? C1 C2]; subst; [split; [exact CF|left; intros q _; reflexivity]|]. cbn [run_step] in C1.
  inversion C2 as [|? ? ? b' rest ? ? Eb A|? ? ? f2 ? A C3]; subst.
  - destruct (Only1 _ C1). split; [assumption|now left].
  - destruct (Append _ _ _ C1 A) as (X1 & X2 & _). split; [exact X1|now left].
  - cbn [run_step] in A. destruct (Append _ _ _ C1 A) as (X1 & X2 & X3 & X4). inversion C3 as [| |? ? ? f3 ? Rn C4]; subst; [split; [exact X1|now left]|]. inversion C4; subst. cbn [run_step] in Rn. pose proof Rn as Rn0.
    unfold rename, tmp, file in Rn. rewrite !resolve_child in Rn by assumption. fold tmp in Rn. change (dd ++ [t ++ S_ ".ldif"]) with file in Rn. cbn [bind] in Rn. rewrite X3 in Rn. rewrite (path_eqb_ne tmp file Ntf) in Rn.
    assert (NDf : stat f2 file <> Some Dir) by (intros X; rewrite X in Rn; discriminate). assert (Ef : f' = put_node (drop_node f2 tmp) file (File w)) by (destruct (stat f2 file) as [[b|]|]; congruence). clear Rn.
    assert (Dn : tmp <> dd) by (unfold tmp; intros X; apply (f_equal (@length str)) in X; rewrite app_length in X; cbn in X; lia).
    assert (Cd : closed (drop_node f2 tmp)) by (apply closed_drop; [exact X1|fold tmp; congruence]). split.
    { rewrite Ef. apply closed_put; [exact Cd|rewrite stat_drop, path_eqb_ne by assumption; exact X4|]. intros _. fold file. rewrite stat_drop, path_eqb_ne by assumption. exact NDf. }
    right. exists w. split; [reflexivity|]. split.
    + subst f'. repeat split; [rewrite stat_put, path_eqb_refl by assumption; reflexivity|rewrite stat_put, path_eqb_ne, stat_drop, path_eqb_refl by congruence; reflexivity|].
      intros q N1 N2. rewrite stat_put, path_eqb_ne, stat_drop, path_eqb_ne by congruence. now apply X2.
    + cbn [run run_step]. rewrite C1. cbn [run run_step]. rewrite A. cbn [run_step]. now rewrite Rn0.
Qed.


Section Tree.
  Variable lower : str -> str.
  Variable io : Z -> Z -> res Z.
  Variable vio : str -> res Z.
  Variable oc : bool.
  Variable R : path.
  Hypothesis TR : tree_root R.

  Lemma root_app p : Forall fname p -> R ++ p <> [] /\ Forall fname (R ++ p).
  Proof. intros F. destruct TR as (N & FR). split; [destruct R; [congruence|discriminate]|apply Forall_app; auto]. Qed.
  Lemma entry_file_abs r d : plain (r :: d) -> entry_file (abs R) (r :: d) = Ok (abs (R ++ file_of (r :: d))).
  Proof.
    intros P. inversion P as [|? ? Pr Pd]; subst. unfold entry_file. cbn [rev]. destruct (rev d ++ [r]) as [|x l] eqn:E; [destruct (rev d); discriminate|]. rewrite <- E, removelast_last, last_last.
    change (map dir_name (rev d)) with (dirs_of d). rewrite fold_pjoin; [|apply TR|apply TR|now apply fname_dirs]. destruct (root_app _ (fname_dirs d Pd)) as (N & F). rewrite pjoin_abs; [|exact N|exact F|now apply fname_ldif]. cbn [file_of]. now rewrite app_assoc.
  Qed.
  Lemma get_abs f d : plain d -> get lower io vio f (abs R) d = match d with [] => Err EAssert | _ => do b <- read_file f (abs (R ++ file_of d)); parse_file lower io vio b end.
  Proof. intros P. unfold get. destruct d as [|r d]; [reflexivity|]. now rewrite entry_file_abs. Qed.

  (** Where temporary files and files are not. *)
  Lemma file_prefix d q : plain d -> inside q (R ++ file_of d) -> forall dd x, q = R ++ dd ++ [x] ->
    (exists r, plain_rdn r /\ x = dir_name r) \/ (q = R ++ file_of d /\ exists r, plain_rdn r /\ x = ldif_name r).
  Proof.
    intros P (t & E) dd x ->. rewrite <- app_assoc in E. apply app_inv_head in E. rewrite <- app_assoc in E. destruct d as [|r d]; [destruct dd; discriminate|]. inversion P as [|? ? Pr Pd]; subst. cbn [file_of] in *.
    destruct t as [|y t _] using rev_ind.
    - rewrite app_nil_r in E. apply app_inj_tail in E as (<- & <-). right. split; [reflexivity|]. exists r. split; [exact Pr|reflexivity].
    - left. rewrite !app_assoc in E. apply app_inj_tail in E as (E & _). assert (I : In x (dirs_of d)) by (rewrite E, !in_app_iff; left; right; now left). unfold dirs_of in I. apply in_map_iff in I as (r' & <- & I). exists r'. split; [|reflexivity].
      unfold plain in Pd. rewrite Forall_forall in Pd. apply Pd. now apply in_rev.
  Qed.
  Lemma tmp_not t uuid d dd q : plain d -> inside q (R ++ file_of d) -> q <> R ++ dd ++ [tmp_name t uuid].
  Proof.
    intros P I E. destruct (file_prefix d q P I dd _ E) as [(r & _ & X)|(_ & r & _ & X)]; unfold tmp_name, dir_name, ldif_name in X; rewrite !app_assoc in X.
    - apply ends_differ in X; [discriminate|reflexivity].
    - change (S_ ".ldif") with (S_ "." ++ S_ "ldif") in X. rewrite app_assoc in X. apply ends_differ in X; [discriminate|reflexivity].
  Qed.

  (** What [get] gives afterwards *)
  Lemma get_tmp_only f f' dd t uuid d : plain d -> tmp_only f f' (R ++ dd ++ [tmp_name t uuid]) -> get lower io vio f' (abs R) d = get lower io vio f (abs R) d.
  Proof.
    intros P T. rewrite !get_abs by exact P. destruct d as [|r d]; [reflexivity|]. destruct (root_app _ (fname_file _ P)) as (N & F). rewrite (read_ext f' f); [reflexivity|exact F|exact N|]. intros s q E. apply T. apply tmp_not with (d := r :: d); [exact P|]. now exists q.
  Qed.
  Lemma file_of_inj a b : plain a -> plain b -> a <> [] -> file_of a = file_of b -> a = b.
  Proof.
    intros Pa Pb Na E. destruct a as [|r a]; [congruence|]. destruct b as [|s b]; [cbn [file_of] in E; destruct (dirs_of a); discriminate|]. cbn [file_of] in E. apply app_inj_tail in E as (E1 & E2). apply app_inv_tail in E2. inversion Pa; inversion Pb; subst. f_equal; [now apply (rdn_text_inj io)|].
    unfold dirs_of in E1. clear E2. assert (X : forall l m, Forall plain_rdn l -> Forall plain_rdn m -> map (fun r => rdn_text r ++ S_ ".dir") l = map (fun r => rdn_text r ++ S_ ".dir") m -> l = m).
    { induction l as [|x l IH]; intros [|y m] Fl Fm Em; try discriminate; [reflexivity|]. injection Em as Ex El. apply app_inv_tail in Ex. inversion Fl; inversion Fm; subst. f_equal; [now apply (rdn_text_inj io)|now apply IH]. }
    apply X in E1; [|now apply Forall_rev|now apply Forall_rev]. apply (f_equal (@rev rdn)) in E1. now rewrite !rev_involutive in E1.
  Qed.
  Lemma get_stored f f' uuid rd p w : closed f' -> plain (rd :: p) -> stored f f' (R ++ dirs_of p ++ [tmp_name (rdn_text rd) uuid]) (R ++ file_of (rd :: p)) w ->
    get lower io vio f' (abs R) (rd :: p) = parse_file lower io vio w /\ forall d, plain d -> d <> rd :: p -> get lower io vio f' (abs R) d = get lower io vio f (abs R) d.
  Proof.
    intros CF P (S1 & S2 & S3). split.
    - rewrite get_abs by exact P. destruct (root_app _ (fname_file _ P)) as (N & F). pose proof (read_abs f' CF _ F N) as Rd. rewrite S1 in Rd. now rewrite Rd.
    - intros d Pd Nd. rewrite !get_abs by exact Pd. destruct d as [|r d]; [reflexivity|]. destruct (root_app _ (fname_file _ Pd)) as (N & F). rewrite (read_ext f' f); [reflexivity|exact F|exact N|]. intros s q E.
      assert (In_ : inside s (R ++ file_of (r :: d))) by (now exists q). apply S3; [apply tmp_not with (d := r :: d); assumption|]. intros Es. cbn [file_of] in Es. destruct (file_prefix _ s Pd In_ _ _ Es) as [(r' & _ & X)|(X & _)].
      + unfold dir_name in X. change (S_ ".ldif") with (S_ "." ++ S_ "ldif") in X. rewrite app_assoc in X. apply ends_differ in X; [discriminate|reflexivity].
      + rewrite Es in X. apply app_inv_head in X. apply Nd. symmetry. apply file_of_inj; [exact P|exact Pd|discriminate|exact X].
  Qed.

  (** The shape of every store: a directory may be made first. *)
  Lemma crash_store f (CF : closed f) uuid rd p e f' : plain (rd :: p) -> part uuid -> e_dn e = rd :: p ->
    let (steps, r) := put_entry lower oc uuid (abs (R ++ dirs_of p ++ [rdn_text rd])) e in
    crash f steps f' -> after_crash lower io vio oc R f f' e (run f steps r = (f', Ok tt)).
  Proof.
    intros P U Ee. inversion P as [|? ? Pr Pp]; subst. rewrite app_assoc. assert (F1 : Forall fname ((R ++ dirs_of p) ++ [tmp_name (rdn_text rd) uuid])).
    { rewrite <- app_assoc. apply root_app. apply Forall_app. split; [now apply fname_dirs|]. constructor; [|constructor]. apply fname_text; [exact Pr|]. apply part_app; [now apply part_lit|]. apply part_app; [exact U|now apply part_lit]. }
    assert (F2 : Forall fname ((R ++ dirs_of p) ++ [rdn_text rd ++ S_ ".ldif"])) by (rewrite <- app_assoc; apply root_app; exact (fname_file _ P)).
    pose proof (crash_put lower oc f CF uuid (R ++ dirs_of p) (rdn_text rd) e f' F1 F2) as H. destruct (put_entry lower oc uuid (abs ((R ++ dirs_of p) ++ [rdn_text rd])) e) as (steps & r). intros Cr. destruct (H Cr) as (C' & [T|(w & W & St & Run)]); (split; [exact C'|]).
    - left. intros d Pd. rewrite <- app_assoc in T. exact (get_tmp_only f f' _ _ _ d Pd T).
    - right. split; [exact Run|]. exists w. split; [exact W|]. rewrite Ee. rewrite <- !app_assoc in St. exact (get_stored f f' uuid rd p w C' P St).
  Qed.

  (** The directory of the parent *)
  Lemma mkdir_get f (CF : closed f) r p f1 d : plain (r :: p) -> plain d -> mkdir f (abs (R ++ dirs_of (r :: p))) = Ok f1 ->
    closed f1 /\ f1 = put_node f (R ++ dirs_of (r :: p)) Dir /\ get lower io vio f1 (abs R) d = get lower io vio f (abs R) d.
  Proof.
    intros P Pd M. rewrite dirs_cons, app_assoc in *. assert (F : Forall fname ((R ++ dirs_of p) ++ [dir_name r])) by (rewrite <- app_assoc, <- dirs_cons; apply root_app; now apply fname_dirs).
    unfold mkdir in M. destruct (resolve f _) as [q|x] eqn:Rs; [|discriminate]. destruct (resolve_parent _ _ _ _ F Rs) as (-> & D). cbn [bind] in M. destruct (stat f ((R ++ dirs_of p) ++ [dir_name r])) eqn:S; [discriminate|]. apply Ok_inj in M. subst f1.
    split; [apply closed_put; [exact CF|exact D|congruence]|]. split; [reflexivity|]. rewrite !get_abs by exact Pd. destruct d as [|r' d]; [reflexivity|]. destruct (root_app _ (fname_file _ Pd)) as (N & Fd). rewrite mkdir_read; [reflexivity|exact CF|exact Fd|exact F| |exact D|exact S].
    intros X. rewrite <- app_assoc in X. apply app_inv_head in X. cbn [file_of] in X. apply app_inj_tail in X as (_ & X). unfold dir_name in X. change (S_ ".ldif") with (S_ "." ++ S_ "ldif") in X. rewrite app_assoc in X. apply ends_differ in X; [discriminate|reflexivity].
  Qed.
  Lemma crash_mkdir_store f (CF : closed f) uuid rd p0 p e f' : plain (rd :: p0 :: p) -> part uuid -> e_dn e = rd :: p0 :: p ->
    let (steps, r) := put_entry lower oc uuid (abs (R ++ dirs_of (p0 :: p) ++ [rdn_text rd])) e in
    crash f (SMkdir (abs (R ++ dirs_of (p0 :: p))) :: steps) f' -> after_crash lower io vio oc R f f' e (run f (SMkdir (abs (R ++ dirs_of (p0 :: p))) :: steps) r = (f', Ok tt)).
  Proof.
    intros P U Ee. assert (Pp : plain (p0 :: p)) by (now inversion P). pose proof (fun f1 C1 => crash_store f1 C1 uuid rd (p0 :: p) e f' P U Ee) as H. destruct (put_entry lower oc uuid _ e) as (steps & r). intros Cr.
    inversion Cr as [| |? ? ? f1 ? M C2]; subst; [split; [exact CF|left; reflexivity]|]. cbn [run_step] in M. destruct (mkdir_get f CF _ _ f1 [] Pp (Forall_nil _) M) as (C1 & E1 & _). specialize (H f1 C1 C2) as (C' & Hc). split; [exact C'|].
    assert (G : forall d, plain d -> get lower io vio f1 (abs R) d = get lower io vio f (abs R) d) by (intros d Pd; now apply (mkdir_get f CF _ _ f1 d Pp Pd M)).
    destruct Hc as [Hc|(Run & w & W & G1 & G2)].
    - left. intros d Pd. rewrite Hc by exact Pd. now apply G.
    - right. split; [cbn [run run_step]; now rewrite M|]. exists w. split; [exact W|]. split; [exact G1|]. intros d Pd Nd. rewrite G2 by assumption. now apply G.
  Qed.
  Lemma crash_nil f f' : crash f [] f' -> f' = f. Proof. intros C. now inversion C. Qed.

  (** C52 for put *)
  Lemma put_crash f (CF : closed f) uuid e steps r f' : plain (e_dn e) -> part uuid ->
    put lower oc f uuid (abs R) e = (steps, r) -> crash f steps f' -> after_crash lower io vio oc R f f' e (run f steps r = (f', Ok tt)).
  Proof.
    intros P U E Cr. unfold put in E. destruct (e_dn e) as [|rd p] eqn:Ed; [cbn in E; injection E as <- <-; apply crash_nil in Cr; subst f'; split; [exact CF|left; reflexivity]|].
    cbn [rev] in E. destruct (rev p ++ [rd]) as [|x l] eqn:El; [destruct (rev p); discriminate|]. rewrite <- El in E. clear x l El. cbv zeta in E. rewrite removelast_last, last_last in E. inversion P as [|? ? Pr Pp]; subst.
    destruct p as [|p0 p].
    - cbn [rev] in E. assert (J : pjoin (abs R) (rdn_text rd) = abs (R ++ dirs_of [] ++ [rdn_text rd])).
      { cbn [dirs_of rev map app]. rewrite pjoin_abs; [reflexivity|apply TR|apply TR|]. rewrite <- (app_nil_r (rdn_text rd)). apply fname_text; [exact Pr|split; intros []]. }
      rewrite J in E. pose proof (crash_store f CF uuid rd [] e f' P U Ed) as H. rewrite E in H. exact (H Cr).
    - cbn [rev] in E. destruct (rev p ++ [p0]) as [|x l] eqn:El; [destruct (rev p); discriminate|]. rewrite <- El in E. clear x l El. rewrite removelast_last, last_last in E. inversion Pp as [|? ? Pp0 Pp']; subst.
      change (map dir_name (rev p)) with (dirs_of p) in E. rewrite (fold_pjoin (dirs_of p) R) in E; [|apply TR|apply TR|now apply fname_dirs]. destruct (root_app _ (fname_dirs p Pp')) as (N1 & F1).
      rewrite !(pjoin_abs (R ++ dirs_of p)) in E by (try assumption; first [now apply fname_ldif|now apply fname_dir]). rewrite <- !app_assoc, <- dirs_cons in E. destruct (root_app _ (fname_dirs (p0 :: p) Pp)) as (N2 & F2).
      assert (Fr : fname (rdn_text rd)) by (rewrite <- (app_nil_r (rdn_text rd)); apply fname_text; [exact Pr|split; intros []]). rewrite !(pjoin_abs (R ++ dirs_of (p0 :: p))) in E by assumption. rewrite <- !app_assoc in E.
      destruct (exists_ f (abs (R ++ dirs_of (p0 :: p)))).
      + pose proof (crash_store f CF uuid rd (p0 :: p) e f' P U Ed) as H. rewrite E in H. exact (H Cr).
      + destruct (negb _); [injection E as <- <-; apply crash_nil in Cr; subst f'; split; [exact CF|left; reflexivity]|].
        pose proof (crash_mkdir_store f CF uuid rd p0 p e f' P U Ed) as H. destruct (put_entry lower oc uuid _ e) as (s & r0). injection E as <- <-. exact (H Cr).
  Qed.

  Lemma add_crash order f (CF : closed f) t uuid rd a steps r f' : placed R t -> plain_rdn rd -> part uuid ->
    add_child_steps lower io vio oc order f t uuid rd a = (steps, r) -> crash f steps f' ->
    after_crash lower io vio oc R f f' (new_entry lower (rd :: t_dn t) a) (run f steps r = (f', Ok tt)).
  Proof.
    intros (Pt & P) Pr U E Cr. assert (Nil : steps = [] -> after_crash lower io vio oc R f f' (new_entry lower (rd :: t_dn t) a) (run f steps r = (f', Ok tt))) by (intros ->; apply crash_nil in Cr; subst f'; split; [exact CF|left; reflexivity]).
    unfold add_child_steps in E. destruct (sync_children lower io vio order f t); [|apply Nil; congruence]. destruct (existsb _ _); [apply Nil; congruence|]. cbv zeta in E. rewrite Pt in E.
    destruct (root_app _ (fname_dirs _ P)) as (N & F). assert (Fr : fname (rdn_text rd)) by (rewrite <- (app_nil_r (rdn_text rd)); apply fname_text; [exact Pr|split; intros []]). rewrite pjoin_abs in E by assumption. rewrite <- app_assoc in E.
    set (e := new_entry lower (rd :: t_dn t) a) in *. assert (Pe : plain (rd :: t_dn t)) by (constructor; assumption).
    destruct (exists_ f (abs (R ++ dirs_of (t_dn t)))) eqn:X.
    - pose proof (crash_store f CF uuid rd (t_dn t) e f' Pe U eq_refl) as H. destruct (put_entry lower oc uuid _ e) as (s & r0). injection E as <- <-. exact (H Cr).
    - destruct (t_dn t) as [|p0 p] eqn:Et.
      + cbn [dirs_of rev map] in *. rewrite app_nil_r in *. destruct (put_entry lower oc uuid _ e) as (s & r0) eqn:Ep. injection E as <- <-. inversion Cr as [| |? ? ? f1 ? M C2]; subst; [split; [exact CF|left; reflexivity]|].
        (* the root directory of the tree is made *)
        cbn [run_step] in M. destruct TR as (NR & FR). destruct (exists_last NR) as (R' & n & ER). pose proof FR as FR'. rewrite ER in FR'. unfold mkdir in M. destruct (resolve f (abs R)) as [q|] eqn:Rs; [|discriminate]. rewrite ER in Rs. destruct (resolve_parent _ _ _ _ FR' Rs) as (-> & D). cbn [bind] in M.
        destruct (stat f (R' ++ [n])) eqn:S; [discriminate|]. apply Ok_inj in M. assert (C1 : closed f1) by (subst f1; apply closed_put; [exact CF|exact D|congruence]).
        assert (G : forall d, plain d -> get lower io vio f1 (abs R) d = get lower io vio f (abs R) d).
        { intros d Pd. rewrite !get_abs by exact Pd. destruct d as [|r' d]; [reflexivity|]. destruct (root_app _ (fname_file _ Pd)) as (_ & Fd). subst f1. rewrite mkdir_read; [reflexivity|exact CF|exact Fd|exact FR'| |exact D|exact S].
          rewrite <- ER. intros Q. rewrite <- (app_nil_r R) in Q at 2. apply app_inv_head in Q. cbn [file_of] in Q. destruct (dirs_of d); discriminate. }
        pose proof (crash_store f1 C1 uuid rd [] e f' Pe U eq_refl) as H. cbn [dirs_of rev map app] in H, Ep. rewrite Ep in H. specialize (H C2) as (C' & Hc). split; [exact C'|]. destruct Hc as [Hc|(Run & w & W & G1 & G2)].
        * left. intros d Pd. rewrite Hc by exact Pd. now apply G.
        * right. split.
          { cbn [run run_step]. assert (M2 : mkdir f (abs R) = Ok f1) by (unfold mkdir; rewrite ER, Rs; cbn [bind]; now rewrite S, M). now rewrite M2. }
          exists w. split; [exact W|]. split; [exact G1|]. intros d Pd Nd. rewrite G2 by assumption. now apply G.
      + pose proof (crash_mkdir_store f CF uuid rd p0 p e f' Pe U eq_refl) as H. destruct (put_entry lower oc uuid _ e) as (s & r0). injection E as <- <-. exact (H Cr).
  Qed.
  (** commit: what it does to the files *)
  Lemma commit_crash f (CF : closed f) t uuid steps r f' : placed R t -> t_dn t <> [] -> part uuid ->
    put_entry lower oc uuid (chop (S_ ".dir") (t_path t)) (t_entry t) = (steps, r) -> crash f steps f' ->
    after_crash lower io vio oc R f f' (t_entry t) (run f steps r = (f', Ok tt)).
  Proof.
    intros (Pt & P) N U E Cr. destruct (t_dn t) as [|rd p] eqn:Et; [congruence|]. rewrite Pt, dirs_cons, app_assoc in E. unfold dir_name in E. rewrite <- abs_ext, chop_app, <- app_assoc in E.
    pose proof (crash_store f CF uuid rd p (t_entry t) f' P U Et) as H. rewrite E in H. exact (H Cr).
  Qed.

  (** ** Reading back *)
  Lemma concat_chunks : forall fuel b, (length b <= fuel)%nat -> concat (chunks fuel b) = b.
  Proof.
    induction fuel as [|k IH]; intros b L; [destruct b; [reflexivity|cbn in L; lia]|]. cbn [chunks]. destruct b as [|c b]; [reflexivity|]. cbn [concat]. rewrite IH; [apply ztake_zdrop|]. unfold zdrop. rewrite skipn_length. cbn [length] in *. lia.
  Qed.
  Lemma parse_file_parse b o : parse lower io vio false [b] = ([REntry o], Ok tt) -> parse_file lower io vio b = Ok o.
  Proof.
    rewrite (chunks_irrelevant lower io vio false [b] (chunks (length b) b)) by (cbn [concat]; rewrite app_nil_r; symmetry; now apply concat_chunks). unfold parse, parse_file. destruct (feed lower io vio false ([], p0) (chunks (length b) b)) as (l & [c|x]); [|discriminate].
    destruct (connectionLost (snd c)); [|discriminate]. intros Q. assert (El : l = [REntry o]) by congruence. now rewrite El.
  Qed.
  Lemma storable_reads (LOC : lower_oc lower) e : storable lower oc e -> exists w e', entry_toWire lower oc e = Ok w /\ parse_file lower io vio w = Ok e' /\ same_entry e e'.
  Proof.
    intros (O & Sh). destruct (entries_roundtrip lower io vio oc LOC [e] (Forall_cons _ O (Forall_nil _))) as (ws & es' & W & Se & H). cbn [mapR] in W. destruct (entry_toWire lower oc e) as [w|x] eqn:Ew; [|discriminate]. cbn [bind] in W. apply Ok_inj in W. subst ws.
    inversion Se as [|? e' ? l Se1 Se2]; subst. inversion Se2; subst. exists w, e'. split; [reflexivity|]. split; [|exact Se1]. destruct H as (H & _); [constructor; [now apply Sh|constructor]|]. apply parse_file_parse. specialize (H ltac:(discriminate)). cbn [concat map] in H. now rewrite app_nil_r in H.
  Qed.
End Tree.
