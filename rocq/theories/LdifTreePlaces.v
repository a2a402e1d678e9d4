(** Where the LDIF tree reads and writes. *)
From Verif Require Import Base BaseFacts Utf8Model DnModel DnSpec DnProofs EntryModel LdifModel LdifSpec InmemModel InmemSpec FsModel LdifTreeModel LdifTreeSpec FsProofs LdifTreeProofs.
From Coq Require Import Permutation.

Lemma below_spec : forall p q, below_or_at p q = true <-> inside p q.
Proof.
  unfold inside. induction p as [|x p IH]; intros q; cbn [below_or_at]; [split; [exists q; reflexivity|reflexivity]|]. destruct q as [|y q]; [split; [discriminate|intros (s & E); discriminate]|].
  destruct (str_eqb_spec x y) as [->|N]; cbn [andb].
  - rewrite IH. split; intros (s & E); exists s; [now rewrite E|now injection E].
  - split; [discriminate|]. intros (s & E). injection E. congruence.
Qed.
Lemma inside_refl p : inside p p. Proof. exists []. now rewrite app_nil_r. Qed.
Lemma inside_app p q : inside p (p ++ q). Proof. now exists q. Qed.

Section Only.
  Variable R : path.
  Definition on (q : path) : Prop := inside R q \/ inside q R.
  Lemma find_filter {A} (P g : A -> bool) l : (forall x, P x = true -> g x = true) -> find P (List.filter g l) = find P l.
  Proof. intros H. induction l as [|x l IH]; [reflexivity|]. cbn [List.filter find]. destruct (P x) eqn:E; [rewrite (H x E); cbn [find]; now rewrite E|]. destruct (g x); [cbn [find]; now rewrite E|exact IH]. Qed.
  Lemma stat_only f q : on q -> stat (only R f) q = stat f q.
  Proof.
    intros O. unfold stat. destruct q as [|a q]; [reflexivity|]. unfold only. rewrite find_filter; [reflexivity|]. intros (p & n) E. cbn [fst] in *. destruct (path_eqb_spec p (a :: q)) as [->|]; [|discriminate]. apply orb_true_iff. rewrite !below_spec. exact O.
  Qed.
  Lemma on_prefix s t p : R ++ p = s ++ t -> on s.
  Proof.
    revert s. unfold on, inside. induction R as [|x r IH]; intros s E; [left; now exists s|]. destruct s as [|y s]; [right; now exists (x :: r)|]. cbn [app] in E. injection E as -> E. destruct (IH s E) as [(u & ->)|(u & U)]; [left; now exists u|right; exists u; cbn; now rewrite U].
  Qed.
  Lemma resolve_only f p : Forall fname (R ++ p) -> R ++ p <> [] -> resolve (only R f) (abs (R ++ p)) = resolve f (abs (R ++ p)).
  Proof. intros F N. rewrite !resolve_abs by assumption. apply walk_ext; [exact F|]. intros s t E _. apply stat_only. exact (on_prefix s t p E). Qed.
  Lemma resolve_self f p q : Forall fname (R ++ p) -> R ++ p <> [] -> resolve f (abs (R ++ p)) = Ok q -> q = R ++ p.
  Proof. intros F N. rewrite resolve_abs by assumption. intros E. now apply walk_result in E. Qed.
  Lemma look_only f p : Forall fname (R ++ p) -> R ++ p <> [] -> look (only R f) (abs (R ++ p)) = look f (abs (R ++ p)).
  Proof. intros F N. unfold look. rewrite resolve_only by assumption. destruct (resolve f (abs (R ++ p))) eqn:E; [|reflexivity]. apply resolve_self in E; [|exact F|exact N]. subst. apply stat_only. left. apply inside_app. Qed.
  Lemma read_only f p : Forall fname (R ++ p) -> R ++ p <> [] -> read_file (only R f) (abs (R ++ p)) = read_file f (abs (R ++ p)).
  Proof. intros F N. unfold read_file. rewrite resolve_only by assumption. destruct (resolve f (abs (R ++ p))) eqn:E; [|reflexivity]. apply resolve_self in E; [|exact F|exact N]. subst. cbn [bind]. rewrite stat_only; [reflexivity|]. left. apply inside_app. Qed.
  Lemma flat_map_filter {A C} (h : A -> list C) (g : A -> bool) l : (forall x, g x = false -> h x = []) -> flat_map h (List.filter g l) = flat_map h l.
  Proof. intros H. induction l as [|x l IH]; [reflexivity|]. cbn [List.filter flat_map]. destruct (g x) eqn:E; [cbn [flat_map]; now rewrite IH|]. now rewrite (H x E), IH. Qed.
  Lemma names_only f p : names_in (only R f) (R ++ p) = names_in f (R ++ p).
  Proof.
    unfold names_in, only. apply flat_map_filter. intros (q & n) G. cbn [fst] in *. destruct q as [|a q]; [reflexivity|]. destruct (path_eqb_spec (removelast (a :: q)) (R ++ p)) as [E|]; [|reflexivity]. exfalso.
    apply orb_false_iff in G as (G & _). rewrite (proj2 (below_spec R (a :: q))) in G; [discriminate|]. rewrite (app_removelast_last [] (l := a :: q)) by discriminate. rewrite E, <- app_assoc. apply inside_app.
  Qed.
  Lemma listdir_only f p : Forall fname (R ++ p) -> R ++ p <> [] -> listdir (only R f) (abs (R ++ p)) = listdir f (abs (R ++ p)).
  Proof. intros F N. unfold listdir. rewrite resolve_only by assumption. destruct (resolve f (abs (R ++ p))) eqn:E; [|reflexivity]. apply resolve_self in E; [|exact F|exact N]. subst. cbn [bind]. rewrite stat_only by (left; apply inside_app). destruct (stat f (R ++ p)) as [[b|]|]; [reflexivity| |reflexivity]. now rewrite names_only. Qed.

  (** ** Steps *)
  Definition at_ (s : str) : Prop := exists p, Forall fname p /\ s = abs (R ++ p).
  Definition step_in (s : step) : Prop :=
    match s with SMkdir p | SCreate p | SWrite p _ | SRemove p => at_ p | SRename a b | STryRename a b => at_ a /\ at_ b end.
  Hypothesis TR : tree_root R.
  Lemma at_resolve f s q : at_ s -> resolve f s = Ok q -> inside R q /\ q <> [].
  Proof. intros (p & F & ->) E. destruct (root_app R TR p F) as (N & Fp). apply resolve_self in E; [|exact Fp|exact N]. subst. split; [apply inside_app|exact N]. Qed.
  Lemma put_outside f p n : inside R p -> p <> [] -> kept_outside R f (put_node f p n).
  Proof. intros I N q Nq. rewrite stat_put, path_eqb_ne by (try assumption; congruence). reflexivity. Qed.
  Lemma drop_outside f p : inside R p -> p <> [] -> kept_outside R f (drop_node f p).
  Proof. intros I N q Nq. rewrite stat_drop, path_eqb_ne by (try assumption; congruence). reflexivity. Qed.
  Lemma inside_trans p q s : inside p q -> inside q s -> inside p s.
  Proof. intros (a & ->) (b & ->). exists (a ++ b). now rewrite app_assoc. Qed.
  Lemma move_outside f p q : inside R p -> inside R q -> q <> [] -> kept_outside R f (move_tree f p q).
  Proof.
    intros Ip Iq Nq x Nx. rewrite <- (drop_outside f q Iq Nq x Nx). unfold move_tree. generalize (drop_node f q) as g. intros g. unfold stat. destruct x as [|a x]; [reflexivity|]. induction g as [|(y & n) g IH]; [reflexivity|]. cbn [map find fst].
    destruct (below_or_at p y) eqn:B; cbn [find fst].
    - apply below_spec in B. rewrite !path_eqb_ne; [exact IH| |].
      + intros ->. apply Nx. exact (inside_trans R p _ Ip B).
      + intros E. apply Nx. rewrite <- E. apply (inside_trans R q _ Iq). apply inside_app.
    - destruct (path_eqb y (a :: x)); [reflexivity|exact IH].
  Qed.
  Lemma kept_refl f : kept_outside R f f. Proof. intros q _. reflexivity. Qed.
  Lemma kept_trans f g h : kept_outside R f g -> kept_outside R g h -> kept_outside R f h.
  Proof. intros A B q N. now rewrite (B q N), (A q N). Qed.
  Lemma rename_kept f a b f' : at_ a -> at_ b -> rename f a b = Ok f' -> kept_outside R f f'.
  Proof.
    intros Aa Ab. unfold rename. destruct (resolve f a) as [p|] eqn:Ra; [|discriminate]. destruct (resolve f b) as [q|] eqn:Rb; [|discriminate]. cbn [bind]. destruct (at_resolve _ _ _ Aa Ra) as (Ip & Np). destruct (at_resolve _ _ _ Ab Rb) as (Iq & Nq).
    assert (Mv : kept_outside R f (move_tree f p q)) by (now apply move_outside). assert (Pt : forall c, kept_outside R f (put_node (drop_node f p) q (File c))) by (intros c; eapply kept_trans; [apply (drop_outside f p Ip Np)|now apply put_outside]).
    destruct (stat f p) as [[c|]|]; [| |discriminate].
    - destruct (stat f q) as [[c'|]|]; try discriminate; (destruct (path_eqb p q); intros Q; apply Ok_inj in Q; subst f'; [apply kept_refl|apply Pt]).
    - destruct (path_eqb p q); [intros Q; apply Ok_inj in Q; subst f'; apply kept_refl|]. destruct (below_or_at p q); [discriminate|]. destruct (stat f q) as [[c'|]|]; [discriminate| |]; [destruct (names_in f q); [|discriminate]|]; intros Q; apply Ok_inj in Q; subst f'; exact Mv.
  Qed.
  Lemma step_kept f s f' : step_in s -> run_step f s = Ok f' -> kept_outside R f f'.
  Proof.
    destruct s as [p|p|p b|a b|a b|p]; cbn [step_in run_step]; intros A.
    - unfold mkdir. destruct (resolve f p) as [q|] eqn:E; [|discriminate]. destruct (at_resolve _ _ _ A E). cbn [bind]. destruct (stat f q); [discriminate|]. intros Q. apply Ok_inj in Q. subst f'. now apply put_outside.
    - unfold create. destruct (resolve f p) as [q|] eqn:E; [|discriminate]. destruct (at_resolve _ _ _ A E). cbn [bind]. destruct (stat f q) as [[c|]|]; [|discriminate|]; intros Q; apply Ok_inj in Q; subst f'; now apply put_outside.
    - unfold append. destruct (resolve f p) as [q|] eqn:E; [|discriminate]. destruct (at_resolve _ _ _ A E). cbn [bind]. destruct (stat f q) as [[c|]|]; [|discriminate|discriminate]. intros Q. apply Ok_inj in Q. subst f'. now apply put_outside.
    - apply rename_kept; apply A.
    - destruct (rename f a b) as [g|x] eqn:E; [intros Q; apply Ok_inj in Q; subst g; now apply (rename_kept f a b)|]. apply (enoent_or' (fun y => y = Ok f' -> kept_outside R f f')); [intros Q; apply Ok_inj in Q; subst f'; apply kept_refl|discriminate].
    - unfold remove. destruct (resolve f p) as [q|] eqn:E; [|discriminate]. destruct (at_resolve _ _ _ A E). cbn [bind]. destruct (stat f q) as [[c|]|]; [|discriminate|discriminate]. intros Q. apply Ok_inj in Q. subst f'. now apply drop_outside.
  Qed.
  Lemma crash_kept f l f' : Forall step_in l -> crash f l f' -> kept_outside R f f'.
  Proof.
    intros F C. induction C as [f l|f s b b' rest l f' E A|f s l f1 f' E C IH]; [apply kept_refl| |].
    - inversion F as [|? ? S _]; subst. exact (step_kept f (SWrite s b') f' S A).
    - inversion F as [|? ? S Fl]; subst. exact (kept_trans f f1 f' (step_kept f s f1 S E) (IH Fl)).
  Qed.
  Lemma run_crash {A} : forall l f (r : res A), crash f l (fst (run f l r)).
  Proof. induction l as [|s l IH]; intros f r; cbn [run]; [constructor|]. destruct (run_step f s) as [f1|x] eqn:E; [|constructor]. exact (crash_later f s l f1 _ E (IH f1 r)). Qed.
End Only.

(** ** Text *)
Lemma rsplit_none c s : ~ In c s -> rsplit c s = None.
Proof. induction s as [|x s IH]; intros N; [reflexivity|]. cbn [rsplit]. rewrite IH by (intros J; apply N; now right). destruct (Z.eqb_spec x c) as [->|]; [destruct N; now left|reflexivity]. Qed.
Lemma rsplit_last c a b : ~ In c b -> rsplit c (a ++ c :: b) = Some (a, b).
Proof. intros N. induction a as [|x a IH]; cbn [app rsplit]; [rewrite rsplit_none by exact N; now rewrite Z.eqb_refl|now rewrite IH]. Qed.
Lemma rsplit_inv c s : forall a b, rsplit c s = Some (a, b) -> s = a ++ c :: b /\ ~ In c b.
Proof.
  induction s as [|x s IH]; intros a b; cbn [rsplit]; [discriminate|]. destruct (rsplit c s) as [(a' & b')|] eqn:E.
  - intros Q. injection Q as <- <-. destruct (IH _ _ eq_refl) as (-> & N). split; [reflexivity|exact N].
  - destruct (Z.eqb_spec x c) as [->|]; [|discriminate]. intros Q. injection Q as <- <-. split; [reflexivity|]. intros I. apply in_split in I as (u & v & ->). clear IH. revert E. induction u as [|y u IHu]; cbn [app rsplit]; [destruct (rsplit c v) as [(? & ?)|]; [discriminate|]; now rewrite Z.eqb_refl|].
    destruct (rsplit c (u ++ c :: v)) as [(? & ?)|]; [discriminate|intros _; now apply IHu].
Qed.
Lemma rstrip_keep s : s <> [] -> last s 0 <> 47 -> rstrip_slash s = s /\ rstrip_slash (s ++ [47]) = s.
Proof.
  induction s as [|x s IH]; [congruence|]. intros _ L. destruct s as [|y s].
  - cbn in L |- *. destruct (Z.eqb_spec x 47); [congruence|]. auto.
  - destruct (IH ltac:(discriminate) L) as (E1 & E2). cbn [app] in *. split; [change (rstrip_slash (x :: y :: s)) with (match rstrip_slash (y :: s) with [] => if x =? 47 then [] else [x] | t => x :: t end); now rewrite E1|].
    change (rstrip_slash (x :: y :: s ++ [47])) with (match rstrip_slash (y :: s ++ [47]) with [] => if x =? 47 then [] else [x] | t => x :: t end). now rewrite E2.
Qed.
Lemma abs_snoc p n : abs (p ++ [n]) = abs p ++ 47 :: n.
Proof. rewrite abs_app. unfold abs at 2. cbn [map concat]. now rewrite app_nil_r. Qed.
Lemma dirname_abs p n : p <> [] -> Forall fname (p ++ [n]) -> dirname (abs (p ++ [n])) = abs p.
Proof.
  intros N F. apply Forall_app in F as (Fp & Fn). inversion Fn as [|? ? (_ & Sn & _) _]; subst. unfold dirname. rewrite abs_snoc, rsplit_last by exact Sn. destruct (exists_last N) as (p' & m & E). assert (L : last (abs p) 0 <> 47) by (rewrite E in Fp |- *; apply Forall_app in Fp as (_ & Fm); apply abs_last; now inversion Fm).
  assert (Na : abs p <> []) by (rewrite E, abs_snoc; destruct (abs p'); discriminate). destruct (rstrip_keep (abs p) Na L) as (_ & ->). destruct (abs p); [congruence|reflexivity].
Qed.
Lemma splitext_abs p t s : ~ In 47 (t ++ 46 :: s) -> In 61 t -> ~ In 46 s -> splitext (abs (p ++ [t ++ 46 :: s])) = (abs (p ++ [t]), 46 :: s).
Proof.
  intros N I D. unfold splitext. rewrite abs_snoc at 1. rewrite (rsplit_last 47) by exact N. rewrite (rsplit_last 46) by exact D. assert (Fb : forallb (Z.eqb 46) t = false).
  { destruct (forallb (Z.eqb 46) t) eqn:E; [|reflexivity]. rewrite forallb_forall in E. specialize (E _ I). discriminate. }
  rewrite Fb. rewrite <- abs_ext, chop_app. reflexivity.
Qed.
Lemma splitext_name t s : ~ In 47 (t ++ 46 :: s) -> In 61 t -> ~ In 46 s -> splitext (t ++ 46 :: s) = (t, 46 :: s).
Proof.
  intros N I D. unfold splitext. rewrite (rsplit_none 47) by exact N. rewrite rsplit_last by exact D. assert (Fb : forallb (Z.eqb 46) t = false).
  { destruct (forallb (Z.eqb 46) t) eqn:E; [|reflexivity]. rewrite forallb_forall in E. specialize (E _ I). discriminate. }
  rewrite Fb, chop_app. reflexivity.
Qed.
Lemma splitext_inv n base ext : ~ In 47 n -> splitext n = (base, ext) -> ext <> [] -> n = base ++ ext /\ base <> [].
Proof.
  intros N. unfold splitext. rewrite (rsplit_none 47) by exact N. destruct (rsplit 46 n) as [(a & b)|] eqn:E; [|intros [= _ <-]; congruence]. apply rsplit_inv in E as (-> & _). destruct (forallb (Z.eqb 46) a) eqn:Fa; [intros [= _ <-]; congruence|]. rewrite chop_app. intros [= <- <-] _. split; [reflexivity|]. intros ->. discriminate.
Qed.
Lemma fname_suffix b s : part b -> part s -> b <> [] -> (2 <= length s)%nat -> fname (b ++ s).
Proof.
  intros (B1 & B2) (S1 & S2) N L. assert (Ln : (3 <= length (b ++ s))%nat) by (rewrite app_length; destruct b; [congruence|cbn; lia]). repeat split; try (rewrite in_app_iff; tauto); intros E; rewrite E in Ln; cbn in Ln; lia.
Qed.

Section Places.
  Variable lower : str -> str.
  Variable io : Z -> Z -> res Z.
  Variable vio : str -> res Z.
  Variable oc : bool.
  Variable order : list str -> list str.
  Variable R : path.
  Hypothesis TR : tree_root R.

  Lemma open_only f p b d : Forall fname p -> fname (b ++ S_ ".ldif") -> open_entry lower io vio (only R f) (abs (R ++ p ++ [b ++ S_ ".dir"])) d = open_entry lower io vio f (abs (R ++ p ++ [b ++ S_ ".dir"])) d.
  Proof.
    intros F Fb. unfold open_entry. destruct (str_eqb (dn_text d) []); [reflexivity|]. unfold load. rewrite app_assoc, <- abs_ext. rewrite endswith_app, chop_app. cbn [negb]. rewrite abs_ext, <- app_assoc.
    assert (Fp : Forall fname (p ++ [b ++ S_ ".ldif"])) by (apply Forall_app; auto). destruct (root_app R TR _ Fp) as (N & FR). rewrite read_only by assumption. reflexivity.
  Qed.
  Lemma get_only f d : plain d -> get lower io vio (only R f) (abs R) d = get lower io vio f (abs R) d.
  Proof. intros P. rewrite !get_abs by assumption. destruct d as [|r d]; [reflexivity|]. destruct (root_app R TR _ (fname_file _ P)) as (N & F). now rewrite read_only. Qed.
  Lemma open_in_place f p b d t : Forall fname p -> fname (b ++ S_ ".dir") -> open_entry lower io vio f (abs (R ++ p ++ [b ++ S_ ".dir"])) d = Ok t -> in_place R t /\ t_dn t = d /\ t_path t = abs (R ++ p ++ [b ++ S_ ".dir"]).
  Proof.
    intros F Fb E. assert (X : t_path t = abs (R ++ p ++ [b ++ S_ ".dir"]) /\ t_dn t = d).
    { unfold open_entry in E. destruct (str_eqb (dn_text d) []); [apply Ok_inj in E; now subst t|]. destruct (load lower io vio f _ d) as [e|] eqn:L; [|discriminate]. cbn [bind] in E. apply Ok_inj in E. subst t. cbn [t_path t_dn t_entry]. split; [reflexivity|].
      unfold load in L. destruct (negb _); [discriminate|]. destruct (read_file f _) as [c|x].
      - destruct (parse_file lower io vio c); [|discriminate]. cbn [bind] in L. apply Ok_inj in L. now subst e.
      - revert L. apply (enoent_or (fun y => y = Ok e -> e_dn e = d)); [intros Q; apply Ok_inj in Q; now subst e|discriminate]. }
    destruct X as (X1 & X2). split; [|auto]. exists (p ++ [b ++ S_ ".dir"]). split; [apply Forall_app; auto|exact X1].
  Qed.

  Lemma lookup_only : forall depth f t d, in_place R t -> plain d ->
    t_lookup lower io vio depth (only R f) t d = t_lookup lower io vio depth f t d /\ (forall t', t_lookup lower io vio depth f t d = Ok t' -> in_place R t').
  Proof.
    induction depth as [|k IH]; intros f t d (p & F & Pt) P; cbn [t_lookup]; [split; [reflexivity|discriminate]|]. destruct (negb _); [split; [reflexivity|discriminate]|]. destruct (dn_eqb lower d (t_dn t)); [split; [reflexivity|intros t' Q; apply Ok_inj in Q; subst; now exists p]|].
    destruct (nth_error d _) as [rd|] eqn:E; [|split; [reflexivity|discriminate]]. assert (Pr : plain_rdn rd) by (apply nth_error_In in E; unfold plain in P; rewrite Forall_forall in P; now apply P). destruct (root_app R TR p F) as (N & FR).
    rewrite Pt, !pjoin_abs by (try assumption; first [now apply fname_dir|now apply fname_ldif]). rewrite <- !app_assoc. assert (Fd : Forall fname (p ++ [dir_name rd])) by (apply Forall_app; split; [exact F|constructor; [now apply fname_dir|constructor]]).
    assert (Fl : Forall fname (p ++ [ldif_name rd])) by (apply Forall_app; split; [exact F|constructor; [now apply fname_ldif|constructor]]). destruct (root_app R TR _ Fd) as (N1 & F1). destruct (root_app R TR _ Fl) as (N2 & F2).
    unfold isdir, isfile. rewrite !look_only by assumption. destruct (_ && _); [split; [reflexivity|discriminate]|]. unfold dir_name. rewrite open_only; [|exact F|now apply fname_ldif]. destruct (open_entry lower io vio f _ _) as [c|] eqn:O; [|split; [reflexivity|discriminate]]. cbn [bind].
    apply IH; [|exact P]. now apply (open_in_place f p (rdn_text rd) (rd :: t_dn t) c F (fname_dir rd Pr)).
  Qed.
  Lemma loop_only f t p : Forall fname p -> t_path t = abs (R ++ p) -> forall names seen, Forall fname names ->
    children_loop lower io vio (only R f) t seen names = children_loop lower io vio f t seen names /\
    (forall cs, children_loop lower io vio f t seen names = Ok cs -> forall c, In c cs -> in_place R c /\ c <> t /\ t_dn c <> []).
  Proof.
    intros F Pt. destruct (root_app R TR p F) as (N & FR). induction names as [|n names IH]; intros seen Fn; cbn [children_loop]; [split; [reflexivity|intros cs Q; apply Ok_inj in Q; subst; intros ? []]|].
    inversion Fn as [|? ? Hn Fns]; subst. destruct (splitext n) as (base & ext) eqn:Sp. destruct (negb _) eqn:X; [now apply IH|]. destruct (existsb _ seen); [now apply IH|]. destruct (parse_rdn io base) as [rd|]; [|split; [reflexivity|discriminate]]. cbn [bind].
    assert (Ne : ext <> []) by (intros ->; discriminate X). destruct Hn as (_ & H47 & H0 & _). destruct (splitext_inv n base ext H47 Sp Ne) as (En & Nb). assert (Pb : part base) by (split; intros J; [apply H47|apply H0]; rewrite En, in_app_iff; now left).
    assert (Fd : fname (base ++ S_ ".dir")) by (apply fname_suffix; [exact Pb|now apply part_lit|exact Nb|cbn; lia]). assert (Fl : fname (base ++ S_ ".ldif")) by (apply fname_suffix; [exact Pb|now apply part_lit|exact Nb|cbn; lia]).
    rewrite Pt, pjoin_abs by assumption. rewrite <- app_assoc. rewrite open_only by assumption. destruct (open_entry lower io vio f _ _) as [c|] eqn:O; [|split; [reflexivity|discriminate]]. cbn [bind]. destruct (IH (base :: seen) Fns) as (E1 & E2). rewrite E1. split; [reflexivity|].
    destruct (children_loop lower io vio f t (base :: seen) names) as [cs'|]; [|discriminate]. cbn [bind]. intros cs Q. apply Ok_inj in Q. subst cs. intros c' [<-|I]; [|now apply (E2 cs' eq_refl)].
    destruct (open_in_place f p base _ c F Fd O) as (I1 & D & Pc). split; [exact I1|]. split; [|rewrite D; discriminate]. intros ->. rewrite Pt in Pc. apply (f_equal (@length Z)) in Pc. rewrite app_assoc, (abs_app (R ++ p)), app_length in Pc. cbn [abs map concat length app] in Pc. lia.
  Qed.
  Lemma names_fname f p : named f -> Forall fname (names_in f p).
  Proof.
    intros Nm. unfold names_in. apply Forall_forall. intros n I. apply in_flat_map in I as ((q & nd) & I & J). cbn [fst] in J. destruct q as [|a q]; [destruct J|]. destruct (path_eqb _ _); [|destruct J]. destruct J as [<-|[]]. specialize (Nm _ _ I). rewrite (app_removelast_last [] (l := a :: q)) in Nm by discriminate. apply Forall_app in Nm as (_ & Nm). now inversion Nm.
  Qed.
  Hypothesis ORD : forall l, Permutation l (order l).
  Lemma sync_only f t : named f -> in_place R t ->
    sync_children lower io vio order (only R f) t = sync_children lower io vio order f t /\
    (forall cs, sync_children lower io vio order f t = Ok cs -> forall c, In c cs -> in_place R c /\ t_dn c <> []).
  Proof.
    intros Nm (p & F & Pt). destruct (root_app R TR p F) as (N & FR). unfold sync_children. rewrite Pt, listdir_only by assumption. destruct (listdir f (abs (R ++ p))) as [names|x] eqn:L.
    - assert (Fn : Forall fname (order names)).
      { unfold listdir in L. destruct (resolve f _) as [q|]; [|discriminate]. cbn [bind] in L. destruct (stat f q) as [[b|]|]; try discriminate. apply Ok_inj in L. subst names. eapply Permutation_Forall; [apply ORD|]. now apply names_fname. }
      destruct (loop_only f t p F Pt (order names) [] Fn) as (E1 & E2). split; [exact E1|]. intros cs Q c I. destruct (E2 cs Q c I) as (A & _ & D). auto.
    - split; [reflexivity|]. intros cs. apply (enoent_or (fun y => y = Ok cs -> forall c, In c cs -> in_place R c /\ t_dn c <> [])); [intros Q; apply Ok_inj in Q; subst cs; intros ? []|discriminate].
  Qed.

  (** ** Writing *)
  Lemma at_abs p : Forall fname p -> at_ R (abs (R ++ p)). Proof. intros F. now exists p. Qed.
  Lemma put_entry_in uuid p t e : Forall fname p -> part t -> t <> [] -> part uuid -> Forall (step_in R) (fst (put_entry lower oc uuid (abs (R ++ p ++ [t])) e)).
  Proof.
    intros F Pt Nt U. rewrite app_assoc, put_entry_abs. cbv zeta. rewrite <- !app_assoc. assert (A1 : at_ R (abs (R ++ p ++ [tmp_name t uuid]))).
    { apply at_abs, Forall_app. split; [exact F|]. constructor; [|constructor]. unfold tmp_name. apply fname_suffix; [exact Pt| |exact Nt|cbn; rewrite app_length; cbn; lia]. apply part_app; [now apply part_lit|]. apply part_app; [exact U|now apply part_lit]. }
    assert (A2 : at_ R (abs (R ++ p ++ [t ++ S_ ".ldif"]))) by (apply at_abs, Forall_app; split; [exact F|]; constructor; [|constructor]; apply fname_suffix; [exact Pt|now apply part_lit|exact Nt|cbn; lia]).
    destruct (entry_toWire lower oc e); cbn [fst]; repeat constructor; cbn [step_in]; auto.
  Qed.
  Lemma text_ne rd : plain_rdn rd -> rdn_text rd <> []. Proof. intros P. pose proof (rdn_text_eqsign rd (proj1 P)). destruct (rdn_text rd); [contradiction|discriminate]. Qed.
  Lemma fname_rdn rd : plain_rdn rd -> fname (rdn_text rd). Proof. intros P. rewrite <- (app_nil_r (rdn_text rd)). apply fname_text; [exact P|split; intros []]. Qed.
  Lemma put_in f uuid e : plain (e_dn e) -> part uuid -> Forall (step_in R) (fst (put lower oc f uuid (abs R) e)).
  Proof.
    intros P U. unfold put. destruct (e_dn e) as [|rd p] eqn:Ed; [constructor|]. cbn [rev]. destruct (rev p ++ [rd]) as [|x l] eqn:El; [destruct (rev p); discriminate|]. rewrite <- El. clear x l El. cbv zeta. rewrite removelast_last, last_last. inversion P as [|? ? Pr Pp]; subst.
    pose proof (rdn_text_part rd Pr) as Pt. pose proof (text_ne rd Pr) as Nt. pose proof (fname_rdn rd Pr) as Fr. destruct p as [|p0 p].
    - cbn [rev]. rewrite pjoin_abs; [|apply TR|apply TR|exact Fr]. change (R ++ [rdn_text rd]) with (R ++ [] ++ [rdn_text rd]). apply put_entry_in; auto.
    - cbn [rev]. destruct (rev p ++ [p0]) as [|x l] eqn:El; [destruct (rev p); discriminate|]. rewrite <- El. clear x l El. rewrite removelast_last, last_last. inversion Pp as [|? ? Pp0 Pp']; subst. change (map dir_name (rev p)) with (dirs_of p). rewrite (fold_pjoin (dirs_of p) R); [|apply TR|apply TR|now apply fname_dirs].
      destruct (root_app R TR _ (fname_dirs p Pp')) as (N1 & F1). rewrite !(pjoin_abs (R ++ dirs_of p)) by (try assumption; first [now apply fname_ldif|now apply fname_dir]). rewrite <- !app_assoc, <- dirs_cons. pose proof (fname_dirs (p0 :: p) Pp) as Fd. destruct (root_app R TR _ Fd) as (N2 & F2). rewrite !(pjoin_abs (R ++ dirs_of (p0 :: p))) by assumption. rewrite <- !app_assoc.
      pose proof (put_entry_in uuid (dirs_of (p0 :: p)) (rdn_text rd) e Fd Pt Nt U) as H. destruct (exists_ f _); [exact H|]. destruct (negb _); [constructor|]. destruct (put_entry lower oc uuid _ e) as (s & r). cbn [fst] in *. constructor; [|exact H]. cbn [step_in]. now apply at_abs.
  Qed.
  Lemma add_in f t uuid rd a : in_place R t -> plain_rdn rd -> part uuid -> Forall (step_in R) (fst (add_child_steps lower io vio oc order f t uuid rd a)).
  Proof.
    intros (p & F & Pt) Pr U. unfold add_child_steps. destruct (sync_children lower io vio order f t); [|constructor]. destruct (existsb _ _); [constructor|]. cbv zeta. destruct (root_app R TR p F) as (N & FR). rewrite Pt, pjoin_abs by (try assumption; now apply fname_rdn). rewrite <- app_assoc.
    pose proof (put_entry_in uuid p (rdn_text rd) (new_entry lower (rd :: t_dn t) a) F (rdn_text_part rd Pr) (text_ne rd Pr) U) as H. destruct (put_entry lower oc uuid _ _) as (s & r). cbn [fst] in *. destruct (exists_ f _); [exact H|]. constructor; [|exact H]. cbn [step_in]. now apply at_abs.
  Qed.
  (** A path that ends with ".dir" *)
  Lemma chop_dir p : p <> [] -> Forall fname p -> endswith (S_ ".dir") (abs (R ++ p)) = true -> exists q b, p = q ++ [b ++ S_ ".dir"].
  Proof.
    intros N F E. destruct (exists_last N) as (q & n & ->). exists q. apply Forall_app in F as (_ & Fn). inversion Fn as [|? ? (_ & Sn & _) _]; subst. rewrite app_assoc, abs_snoc in E. set (pre := abs (R ++ q)) in *. unfold endswith in E. apply andb_true_iff in E as (E & L). destruct (str_eqb_spec (skipn (length (pre ++ 47%Z :: n) - length (S_ ".dir")) (pre ++ 47%Z :: n)) (S_ ".dir")) as [E'|]; [|discriminate].
    apply Nat.leb_le in L. change (length (S_ ".dir")) with 4%nat in *. rewrite app_length in *. cbn [length] in *.
    destruct (Nat.le_gt_cases 4 (length n)) as [Ln|Ln].
    - exists (firstn (length n - 4) n). f_equal. rewrite <- E'. replace (length pre + S (length n) - 4)%nat with (length pre + S (length n - 4))%nat by lia. rewrite skipn_app, skipn_all2 by lia. replace (length pre + S (length n - 4) - length pre)%nat with (S (length n - 4)) by lia. cbn [skipn app]. f_equal. symmetry. apply firstn_skipn.
    - exfalso. assert (I : In 47 (S_ ".dir")); [|revert I; assert (Q : forallb (fun c => negb (c =? 47)) (S_ ".dir") = true) by reflexivity; rewrite forallb_forall in Q; intros I; specialize (Q _ I); discriminate]. rewrite <- E'. rewrite skipn_app. apply in_or_app. right. replace (length pre + S (length n) - 4 - length pre)%nat with 0%nat by lia. now left.
  Qed.
  Lemma delete_in f t : in_place R t -> t_path t <> abs R -> Forall (step_in R) (fst (delete_steps lower io vio order f t)).
  Proof.
    intros (p & F & Pt) NR. unfold delete_steps. destruct (str_eqb _ []); [constructor|]. destruct (sync_children lower io vio order f t) as [[|c cs]|]; [|constructor|constructor]. destruct (endswith (S_ ".dir") (t_path t)) eqn:E; cbn [negb]; [|constructor]. cbn [fst]. constructor; [|constructor]. cbn [step_in].
    rewrite Pt in *. assert (Np : p <> []) by (intros ->; apply NR; now rewrite app_nil_r). destruct (chop_dir p Np F E) as (q & b & ->). rewrite app_assoc, <- (abs_ext (R ++ q)), chop_app, abs_ext, <- app_assoc. apply at_abs. apply Forall_app in F as (Fq & Fb). apply Forall_app. split; [exact Fq|]. inversion Fb as [|? ? (_ & B1 & B2 & _) _]; subst. constructor; [|constructor].
    destruct b as [|x b]; [repeat split; cbn; intuition (try discriminate; lia)|]. apply fname_suffix; [|now apply part_lit|discriminate|cbn; lia]. split; intros J; [apply B1|apply B2]; apply in_or_app; now left.
  Qed.
  Lemma commit_in uuid t : in_place R t -> t_path t <> abs R -> part uuid -> endswith (S_ ".dir") (t_path t) = true -> Forall (step_in R) (fst (put_entry lower oc uuid (chop (S_ ".dir") (t_path t)) (t_entry t))).
  Proof.
    intros (p & F & Pt) NR U E. rewrite Pt in *. assert (Np : p <> []) by (intros ->; apply NR; now rewrite app_nil_r). destruct (chop_dir p Np F E) as (q & b & ->). rewrite app_assoc, <- (abs_ext (R ++ q)), chop_app, <- app_assoc. apply Forall_app in F as (Fq & Fb). inversion Fb as [|? ? (_ & B1 & B2 & _) _]; subst.
    assert (Pb : part b) by (split; intros J; [apply B1|apply B2]; apply in_or_app; now left). destruct b as [|x b]; [|apply put_entry_in; [exact Fq|exact Pb|discriminate|exact U]].
    rewrite app_assoc, put_entry_abs. cbv zeta. rewrite <- !app_assoc. unfold tmp_name. cbn [app]. assert (Fx : fname (S_ "." ++ uuid ++ S_ ".tmp")) by (apply fname_suffix; [now apply part_lit|apply part_app; [exact U|now apply part_lit]|discriminate|rewrite app_length; cbn; lia]).
    assert (A1 : at_ R (abs (R ++ q ++ [S_ "." ++ uuid ++ S_ ".tmp"]))) by (apply at_abs, Forall_app; auto). assert (A2 : at_ R (abs (R ++ q ++ [S_ ".ldif"]))) by (apply at_abs, Forall_app; split; [exact Fq|]; constructor; [|constructor]; repeat split; cbn; intuition (try discriminate; lia)).
    destruct (entry_toWire lower oc (t_entry t)); cbn [fst]; repeat constructor; cbn [step_in]; auto.
  Qed.

  (** move *)
  Lemma climb_abs d : plain d -> climb d (abs (R ++ dirs_of d)) = abs R.
  Proof.
    induction d as [|r d IH]; intros P; cbn [climb]; [cbn [dirs_of rev map]; now rewrite app_nil_r|]. inversion P as [|? ? Pr Pd]; subst. rewrite dirs_cons, app_assoc. destruct (root_app R TR _ (fname_dirs d Pd)) as (N & F). rewrite dirname_abs; [now apply IH|exact N|]. apply Forall_app. split; [exact F|constructor; [now apply fname_dir|constructor]].
  Qed.
  Lemma move_in t p newDN s t' : placed R t -> plain newDN -> match p with Some q => in_place R q | None => True end -> move_steps lower t p newDN = Ok (s, t') -> Forall (step_in R) s /\ in_place R t' /\ t_path t' <> abs R.
  Proof.
    intros (Pt & P) Pn Pp. unfold move_steps. destruct (t_dn t) as [|o d] eqn:Et; [discriminate|]. destruct newDN as [|n nd]; [discriminate|]. inversion P as [|? ? Po Pd]; inversion Pn as [|? ? Pnr Pnd]; subst. destruct (each_value _ o _) as [e1|]; [|discriminate]. cbn [bind]. destruct (each_value _ n e1) as [e2|]; [|discriminate]. cbn [bind].
    assert (D : exists q, Forall fname q /\ match p with None => dirname (t_path t) | Some x => t_path x end = abs (R ++ q)).
    { destruct p as [x|]; [exact Pp|]. exists (dirs_of d). split; [now apply fname_dirs|]. rewrite Pt, dirs_cons, app_assoc. destruct (root_app R TR _ (fname_dirs d Pd)) as (N & F). apply dirname_abs; [exact N|]. apply Forall_app. split; [exact F|constructor; [now apply fname_dir|constructor]]. }
    destruct D as (q & Fq & ->). destruct (root_app R TR q Fq) as (Nq & FRq). rewrite !(pjoin_abs (R ++ q)) by (try assumption; first [now apply fname_dir|now apply fname_ldif]). rewrite Pt, dirs_cons, app_assoc. pose proof (rdn_text_part o Po) as (T1 & T2).
    assert (Sp : splitext (abs ((R ++ dirs_of d) ++ [dir_name o])) = (abs ((R ++ dirs_of d) ++ [rdn_text o]), S_ ".dir")).
    { apply (splitext_abs (R ++ dirs_of d) (rdn_text o) (S_ "dir")); [intros J; apply in_app_iff in J as [J|J]; [exact (T1 J)|revert J; apply (part_lit (S_ ".dir")); reflexivity]|apply rdn_text_eqsign, Po|intros J; repeat destruct J as [J|J]; try discriminate J; contradiction]. }
    rewrite Sp.
    destruct (negb _); [discriminate|]. intros Q. apply Ok_inj in Q. assert (Es : s = [STryRename (abs ((R ++ dirs_of d) ++ [dir_name o])) (abs ((R ++ q) ++ [dir_name n])); SRename (abs ((R ++ dirs_of d) ++ [rdn_text o]) ++ S_ ".ldif") (abs ((R ++ q) ++ [ldif_name n]))]) by (apply (f_equal fst) in Q; cbn [fst] in Q; congruence).
    assert (Ep : t_path t' = abs ((R ++ q) ++ [dir_name n])) by (apply (f_equal snd) in Q; cbn [snd] in Q; now subst t'). rewrite abs_ext in Es. rewrite <- app_assoc in Ep.
    assert (A : forall l r x, Forall fname l -> plain_rdn r -> part x -> at_ R (abs ((R ++ l) ++ [rdn_text r ++ x]))) by (intros l r x Fl Pr Px; rewrite <- app_assoc; apply at_abs, Forall_app; split; [exact Fl|]; constructor; [now apply fname_text|constructor]).
    split; [|split].
    - rewrite Es. pose proof (fname_dirs d Pd) as Fd. assert (L1 : part (S_ ".dir")) by (now apply part_lit). assert (L2 : part (S_ ".ldif")) by (now apply part_lit).
      apply Forall_cons; [split; [exact (A _ o _ Fd Po L1)|exact (A _ n _ Fq Pnr L1)]|]. apply Forall_cons; [split; [exact (A _ o _ Fd Po L2)|exact (A _ n _ Fq Pnr L2)]|]. apply Forall_nil.
    - exists (q ++ [dir_name n]). split; [|exact Ep]. apply Forall_app. split; [exact Fq|constructor; [now apply fname_dir|constructor]].
    - rewrite Ep, abs_app. intros X. rewrite <- (app_nil_r (abs R)) in X at 2. apply app_inv_head in X. rewrite abs_snoc in X. destruct (abs q); discriminate.
  Qed.
  Lemma move_kept depth f uuid t newDN : placed R t -> plain newDN -> part uuid -> kept_outside R f (fst (t_move lower io vio oc depth f uuid t newDN)).
  Proof.
    intros Pl Pn U. unfold t_move. destruct (new_parent lower io vio depth f t newDN) as [p|] eqn:Np; cbn [bind]; [|apply kept_refl]. destruct (move_steps lower t p newDN) as [(s & t')|] eqn:M; [|apply kept_refl].
    assert (Pp : match p with Some q => in_place R q | None => True end).
    { destruct p as [q|]; [|exact I]. unfold new_parent in Np. destruct (negb _); [|discriminate]. destruct Pl as (Pt & P). rewrite Pt, climb_abs in Np by exact P. change (open_entry lower io vio f (abs R) []) with (Ok (mkLent (abs R) (mkEntry [] []))) in Np. cbn [bind] in Np. destruct (t_lookup lower io vio depth f _ _) as [x|] eqn:L; [|discriminate]. cbn [bind] in Np. assert (x = q) by congruence. subst x.
      assert (Pu : plain (dn_up newDN)) by (unfold dn_up; destruct newDN; [constructor|now inversion Pn]). refine (proj2 (lookup_only depth f (mkLent (abs R) (mkEntry [] [])) _ _ Pu) q _); [|exact L]. exists []. split; [constructor|cbn; now rewrite app_nil_r]. }
    destruct (move_in t p newDN s t' Pl Pn Pp M) as (Fs & I' & N'). pose proof (crash_kept R TR f s _ Fs (run_crash s f (Ok tt))) as K1. destruct (run f s (Ok tt)) as (f' & [u|x]); cbn [fst] in *; [|exact K1].
    unfold t_commit. destruct (endswith (S_ ".dir") (t_path t')) eqn:E; cbn [negb]; [|exact K1]. pose proof (commit_in uuid t' I' N' U E) as Fc. destruct (put_entry lower oc uuid _ _) as (s2 & r2). pose proof (crash_kept R TR f' s2 _ Fc (run_crash s2 f' r2)) as K2. destruct (run f' s2 r2) as (f'' & o). cbn [fst] in *. exact (kept_trans R _ _ _ K1 K2).
  Qed.
End Places.
