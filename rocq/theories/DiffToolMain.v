(** Proofs about ldifdiff and ldifpatch: from the two files to the patched one (C98). *)
From Coq Require Import Permutation.
From Verif Require Import Base BaseFacts Utf8Model Utf8Proofs DnModel DnSpec DnProofs EntryModel EntrySpec EntryProofs SortFacts DiffProofs DeltaSpec LdapSpec MatchModel UtilModel
  LdifSpec LdifProofs LdifRead LdifRound InmemModel InmemSpec InmemProofs InmemHist InmemMove LoadModel LoadSpec ServerModel ServerSearch SyntaxSpec SyntaxProofs
  LoadProofs LoadDump TreeDiffModel TreeDiffSpec TreeDiffSteps TreeDiffProofs TreeDiffMain DiffToolSpec DiffToolProofs DiffToolLoad LdifModel DiffToolModel.
Notation items := ServerModel.items.

(** ** A choice for each of finitely many operations *)
Definition atv_dec (a b : atv) : {a = b} + {a <> b}.
Proof. decide equality; apply (list_eq_dec Z.eq_dec). Defined.
Definition dn_dec : forall a b : dn, {a = b} + {a <> b} := list_eq_dec (list_eq_dec atv_dec).
Definition byte_dec (a b : byte) : {a = b} + {a <> b}.
Proof.
  destruct (Z.eq_dec (b2z a) (b2z b)) as [E|N]; [left|right; congruence]. rewrite <- (z2b_b2z a), <- (z2b_b2z b). now rewrite E.
Defined.
Definition pyval_dec (a b : pyval) : {a = b} + {a <> b}.
Proof. decide equality; [apply (list_eq_dec Z.eq_dec)|apply (list_eq_dec byte_dec)]. Defined.
Definition delta_dec (a b : delta) : {a = b} + {a <> b}.
Proof. decide equality; [apply (list_eq_dec pyval_dec)|apply pyval_dec|decide equality]. Defined.
Definition aset_dec (a b : aset) : {a = b} + {a <> b}.
Proof. decide equality; [apply (list_eq_dec pyval_dec)|apply pyval_dec]. Defined.
Definition top_dec (a b : top) : {a = b} + {a <> b}.
Proof.
  destruct a as [d ms|[d at_]|d], b as [d' ms'|[d' at']|d']; try (right; discriminate).
  - destruct (dn_dec d d') as [->|]; [|right; congruence]. destruct (list_eq_dec delta_dec ms ms') as [->|]; [now left|right; congruence].
  - destruct (dn_dec d d') as [->|]; [|right; congruence]. destruct (list_eq_dec aset_dec at_ at') as [->|]; [now left|right; congruence].
  - destruct (dn_dec d d') as [->|]; [now left|right; congruence].
Defined.
Lemma choose (R : top -> top -> Prop) l : (forall op, In op l -> exists op', R op op') -> exists tr, forall op, In op l -> R op (tr op).
Proof.
  induction l as [|x l IH]; intros H; [exists (fun op => op); intros op []|]. destruct IH as (tr & T); [intros op I; apply H; now right|].
  destruct (H x (or_introl eq_refl)) as (x' & X). exists (fun op => if top_dec op x then x' else tr op). intros op [<-|I].
  - destruct (top_dec x x); [exact X|congruence].
  - destruct (top_dec op x) as [->|]; [exact X|now apply T].
Qed.

(** ** Lookup, up to the spelling of the DN *)
Lemma lookup_same lower h d d' : same_dn lower d d' -> forall depth r, lookup lower depth h r d = lookup lower depth h r d'.
Proof.
  intros S. assert (CO : forall x, contains lower x d = contains lower x d').
  { intros x. apply Bool.eq_iff_eq_true. rewrite !contains_spec. split; intros H; (eapply intree_trans; [exact H|]); apply intree_same; [exact S|now apply same_sym]. }
  assert (EQ : forall x, dn_eqb lower d x = dn_eqb lower d' x).
  { intros x. apply Bool.eq_iff_eq_true. rewrite !dn_eqb_spec. split; intros H; (eapply same_trans; [|exact H]); [now apply same_sym|exact S]. }
  induction depth as [|depth IH]; intros r; [reflexivity|]. cbn [lookup]. destruct (deref h r) as [n|]; [|reflexivity]. cbn [bind]. rewrite CO, EQ.
  destruct (negb _); [reflexivity|]. destruct (dn_eqb _ _ _); [reflexivity|].
  induction (n_children n) as [|(k & c) cs IHc]; [reflexivity|]. destruct (deref h c) as [m|]; [|reflexivity]. cbn [bind]. rewrite CO, IH, IHc. reflexivity.
Qed.

(** ** Writing the tree *)
Section Output.
  Variables (lower : str -> str) (oc : bool).
  Variables (h : heap) (L : list ref).
  Hypothesis T : tree h L.
  Variable f : ref -> bytes.
  Hypothesis F : forall c, In c L -> entry_toWire lower oc (ent_at h c) = Ok (f c).

  Lemma write_at c w : In c L -> write_node lower oc h c w = (w ++ f c, None).
  Proof.
    intros I. unfold write_node, deref. pose proof (F c I) as E. unfold ent_at in E. destruct (t_node h L T c I) as (n & N). rewrite N in *. cbn [bind]. now rewrite E.
  Qed.
  Lemma write_walk n : forall r w, In r L -> (forall c, below h r c -> (dlen h c - dlen h r < n)%nat) ->
    subtree (write_node lower oc h) n h r w = (w ++ concat (map f (pre h n r)), None).
  Proof.
    induction n as [|n IH]; intros r w Ir Dp; [specialize (Dp r (below_refl h r)); lia|].
    cbn [subtree pre]. rewrite (write_at r w Ir). destruct (t_node h L T r Ir) as (nd & N). rewrite N.
    assert (KD : kids h r = map snd (n_children nd)) by (unfold kids; now rewrite N). rewrite KD.
    f_equal.
    assert (G : forall cs s0, (forall x, In x (map snd cs) -> In x (kids h r)) ->
      (fix pop (cs : list (str * ref)) (s : bytes) {struct cs} : bytes :=
         match cs with
         | [] => s
         | (_, c) :: rest => match subtree (write_node lower oc h) n h c s with (s1, None) => pop rest s1 | (s1, Some _) => s1 end
         end) cs s0 = s0 ++ concat (map f (flat_map (pre h n) (map snd cs)))).
    { induction cs as [|(k & c) cs IHc]; intros s0 Sub; cbn [map flat_map snd concat]; [now rewrite app_nil_r|].
      assert (Kc : In c (kids h r)) by (apply Sub; now left). rewrite IH.
      - rewrite IHc by (intros x J; apply Sub; now right). now rewrite map_app, concat_app, <- app_assoc.
      - exact (t_kids h L T r c Ir Kc).
      - intros x Bx. pose proof (dlen_kid h L T r c Ir Kc). assert (below h r x) by (econstructor; eauto). specialize (Dp x H0). pose proof (dlen_below h L T c x (t_kids h L T r c Ir Kc) Bx). lia. }
    rewrite G; [|intros x J; rewrite KD; rewrite map_rev in J; now apply in_rev in J]. rewrite map_rev. cbn [map concat]. rewrite <- app_assoc. reflexivity.
  Qed.
  Lemma output_dump depth : (forall c, In c L -> (length (dn_at h c) < depth)%nat) ->
    exists text, dump lower oc depth h = Ok text /\ patch_output lower oc depth h = (text, Exit0).
  Proof.
    intros D. assert (Dp : forall c, below h 0%nat c -> (dlen h c - dlen h 0%nat < depth)%nat).
    { intros c B. pose proof (below_in h L T 0%nat c B (t_root h L T)) as Ic. specialize (D c Ic). rewrite dlen_at. lia. }
    unfold dump, patch_output. rewrite (collect h L T depth 0%nat [] (t_root h L T) Dp), (write_walk depth 0%nat ldif_header (t_root h L T) Dp). cbn [app].
    pose proof (pre_in h L T depth 0%nat) as PI. generalize dependent (pre h depth 0%nat). intros l PI.
    assert (A : mapR (fun c => do n <- deref h c; Ok (n_entry n)) l = Ok (map (ent_at h) l)).
    { assert (Q : forall c, In c l -> In c L) by (intros c J; apply (PI c (t_root h L T) J)). clear PI. induction l as [|c l IH]; [reflexivity|]. cbn [mapR map].
      unfold deref at 1. unfold ent_at at 1. destruct (t_node h L T c (Q c (or_introl eq_refl))) as (n & N). rewrite N. cbn [bind]. rewrite IH by (intros x J; apply Q; now right). reflexivity. }
    assert (B : mapR (entry_toWire lower oc) (map (ent_at h) l) = Ok (map f l)).
    { assert (Q : forall c, In c l -> In c L) by (intros c J; apply (PI c (t_root h L T) J)). clear PI A. induction l as [|c l IH]; [reflexivity|]. cbn [mapR map].
      rewrite (F c (Q c (or_introl eq_refl))). cbn [bind]. rewrite IH by (intros x J; apply Q; now right). reflexivity. }
    rewrite A. cbn [bind]. rewrite B. cbn [bind]. eauto.
  Qed.
End Output.

(** ** Operations written and read *)
Section Ops.
  Variable lower : str -> str.
  Variable io : Z -> Z -> res Z.
  Variable vio : str -> res Z.
  Variable oc : bool.
  Hypothesis LOC : LdifSpec.lower_oc lower.
  Notation same := (same_dn lower).

  Definition rec (op : top) : record := match op with TModify d ms => RModify d ms | TAdd e => RAdd e | TDelete d => RDelete d end.
  Definition same_op (op op' : top) : Prop :=
    match op, op' with
    | TModify d ms, TModify d' ms' => d' = d /\ Forall2 same_mod ms ms'
    | TAdd e, TAdd e' => same_entry e e' /\ octets_only lower e'
    | TDelete d, TDelete d' => d' = d
    | _, _ => False
    end.
  (** [op] can be written, and [op'] is read back. *)
  Definition reread (op op' : top) : Prop :=
    same_op op op' /\ exists t, op_text lower oc op = Ok t /\
      (short_lines t -> forall s, idle0 s -> process lower io vio true t s = ([rec op'], Ok ([], waiting s))).

  Lemma reread_delete d : ldif_dn_ok d -> exists op', reread (TDelete d) op'.
  Proof. intros O. destruct (delete_process lower io vio d O) as (t & A & P). exists (TDelete d). split; [reflexivity|]. exists t. auto. Qed.
  Lemma add_full k v data : (forall k vs, In (k, vs) data -> vs <> []) -> forall k' (vs' : list bytes), In (k', vs') (data_add k v data) -> vs' <> [].
  Proof. exact (data_add_full k v data). Qed.
  Lemma all_full kvs : forall k (vs : list bytes), In (k, vs) (add_all [] kvs) -> vs <> [].
  Proof.
    unfold add_all. assert (G : forall kvs data, (forall k (vs : list bytes), In (k, vs) data -> vs <> []) ->
      forall k (vs : list bytes), In (k, vs) (fold_left (fun d kv => data_add (fst kv) (snd kv) d) kvs data) -> vs <> []).
    { induction kvs0 as [|(k & v) kvs0 IH]; intros data H; [exact H|]. cbn [fold_left fst snd]. apply IH. now apply add_full. }
    apply G. intros k vs [].
  Qed.
  Lemma reread_add e : written lower e -> ldif_dn_ok (e_dn e) -> (exists k v, says e k v) -> exists op', reread (TAdd e) op'.
  Proof.
    intros W D S. destruct (add_process lower io vio oc LOC e (written_ldif lower e W D)) as (t & e' & A & Se & (kvs & Ek) & P).
    - intros a k I Tk. destruct W as (_ & K). destruct (K a I) as (b & Eb & _ & W13). rewrite Eb in Tk. cbn in Tk. apply Ok_inj in Tk. now subst.
    - exact S.
    - exists (TAdd e'). split; [|exists t; auto]. split; [exact Se|]. subst e'. apply new_octets. apply all_full.
  Qed.
  Lemma reread_modify ea eb ms : written lower ea -> written lower eb -> ldif_dn_ok (e_dn ea) -> diff lower ea eb = Ok (Some ms) ->
    exists op', reread (TModify (e_dn ea) ms) op'.
  Proof.
    intros Wa Wb D Df. pose proof (diff_made lower false false ea eb (proj1 (proj1 Wa)) (proj1 (proj1 Wb)) ms Df) as M.
    destruct (modify_process lower io vio (e_dn ea) ms D) as (t & ms' & A & Sm & P).
    - eapply Forall_impl; [|exact M]. intros m (x & X & K & _ & V). split.
      + assert (Wx : written lower x) by (destruct X as [->| ->]; assumption). unfold keys_of in K. apply in_map_iff in K as (a & <- & Ia).
        destruct Wx as (_ & Kx). destruct (Kx a Ia) as (k & -> & Nk & _). exists k. auto.
      + left. intros v Iv. destruct (V v Iv) as (y & a & Y & Ia & Va). assert (Wy : written lower y) by (destruct Y as [->| ->]; assumption).
        exact (proj2 (written_octets lower y Wy a Ia) v Va).
    - exists (TModify (e_dn ea) ms'). split; [split; [reflexivity|exact Sm]|]. exists t. auto.
  Qed.

  Lemma same_vsame m m' : (exists b, d_key m = PBytes b) -> (forall v, In v (d_vals m) -> exists b, v = PBytes b) -> same_mod m m' -> vsame m m'.
  Proof.
    intros (b & K) V (Kd & (c & K1 & K2) & (b' & K') & _ & V' & Dn). split; [exact Kd|]. split.
    - rewrite K, K' in *. cbn in K1, K2. congruence.
    - intros v. split; intros I.
      + destruct (V' v I) as (x & ->). destruct (proj2 (Dn x)) as (w & Iw & Tw); [exists (PBytes x); auto|]. destruct (V w Iw) as (y & ->). cbn in Tw. apply Ok_inj in Tw. now subst.
      + destruct (V v I) as (x & ->). destruct (proj1 (Dn x)) as (w & Iw & Tw); [exists (PBytes x); auto|]. destruct (V' w Iw) as (y & ->). cbn in Tw. apply Ok_inj in Tw. now subst.
  Qed.

  (** The entries count as the same, and the first can be written. *)
  Definition likew (e f : entry) : Prop := alike lower e f /\ written lower e.

  Lemma octets_holds e e' : all_octets e -> all_octets e' -> (forall k v, says e' k v <-> says e k v) -> forall k v, holds lower e' k v <-> holds lower e k v.
  Proof.
    intros O O' S k v. assert (G : forall x, all_octets x -> holds lower x k v -> exists kb vb, k = PBytes kb /\ v = PBytes vb).
    { intros x Ox (a & Ia & La & Va). destruct (Ox a Ia) as ((kb & Ek) & V). destruct (V v Va) as (vb & ->). rewrite Ek in La. destruct k; [discriminate|eauto]. }
    split; intros H.
    - destruct (G e' O' H) as (kb & vb & -> & ->). apply (says_holds lower _ _ _ O), S, (says_holds lower _ _ _ O'), H.
    - destruct (G e O H) as (kb & vb & -> & ->). apply (says_holds lower _ _ _ O'), S, (says_holds lower _ _ _ O), H.
  Qed.

  Lemma copy_again f f' d : written lower f -> same d (e_dn f) -> same_entry f f' -> octets_only lower f' ->
    exists its, items lower oc f' = Ok its /\ likew (new_entry lower d its) f.
  Proof.
    intros W Sd (Ed & Sy) O. destruct (items_octets lower oc f' O) as (its & It & SA). exists its. split; [exact It|].
    assert (AO : all_octets f') by (intros a Ia; destruct (proj1 O a Ia) as (X & _ & Y); auto).
    pose proof (written_octets lower f W) as AF. pose proof (octets_holds f f' AF AO Sy) as HH.
    split; [split; [exact Sd|]|].
    - intros k v. rewrite (proj2 (SA d) k v). apply HH.
    - apply written_new. intros k vs I. destruct (items_sound lower oc f' its It k vs I) as (a & Ia & La & Pm). destruct (proj1 O a Ia) as ((kb & Ek) & NE & _).
      assert (HA : forall v, In v (s_vals a) -> holds lower f (s_key a) v) by (intros v Iv; apply HH; exists a; auto).
      destruct W as (((F & _) & _) & Kf). rewrite Forall_forall in F. split.
      + destruct (s_vals a) as [|v0 r] eqn:Ev; [congruence|]. destruct (HA v0 (or_introl eq_refl)) as (b & Ib & Lb & _). destruct (Kf b Ib) as (k' & Eb & Nk & Wk).
        destruct (F b Ib) as (Tb & _). rewrite Ek in La, Lb. rewrite Eb in Lb, Tb. destruct k as [|kk]; [discriminate|]. exists kk. split; [reflexivity|].
        cbn [lowv] in La, Lb. assert (L1 : lower_bytes k' = lower_bytes kk) by congruence.
        split; [exact (lower_texty k' kk L1 Tb)|]. split; [exact (lower_name k' kk L1 Nk)|exact (lower_13 k' kk L1 Wk)].
      + intros v Iv. apply (Permutation_in _ (Permutation_sym Pm)) in Iv. destruct (HA v Iv) as (b & Ib & _ & Vb). destruct (F b Ib) as (_ & Tv & _).
        rewrite Forall_forall in Tv. specialize (Tv v Vb). destruct v as [|vb]; [destruct Tv|]. exists vb. split; [reflexivity|exact Tv].
  Qed.

  Lemma patch_again ea eb ms ms' : written lower ea -> written lower eb -> comparable lower ea eb -> same (e_dn ea) (e_dn eb) ->
    diff lower ea eb = Ok (Some ms) -> Forall2 same_mod ms ms' ->
    exists e', patch_all lower ms' ea = (e', Ok tt) /\ e_dn e' = e_dn ea /\ likew e' eb.
  Proof.
    intros Wa Wb (_ & _ & _ & _ & Sp) S Df Sm. pose proof (proj1 (proj1 Wa)) as Oa. pose proof (proj1 (proj1 Wb)) as Ob.
    pose proof (diff_made lower false false ea eb Oa Ob ms Df) as M.
    destruct (diff_patch lower false false ea eb Oa Ob Sp (proj2 (dn_eqb_spec lower _ _) S)) as [(e0 & D & _)|(ms0 & e1 & D & _ & Pt & O1 & Dn & H & _)]; [congruence|].
    rewrite Df in D. apply Ok_inj in D. injection D as <-.
    assert (WX : forall x, x = ea \/ x = eb -> written lower x) by (intros x [->| ->]; assumption).
    assert (KM : forall m, In m ms -> exists k, d_key m = PBytes k /\ name_ok k /\ without 13 k /\ typed false (d_key m)).
    { intros m Im. rewrite Forall_forall in M. destruct (M m Im) as (x & X & K & _). apply WX in X. unfold keys_of in K. apply in_map_iff in K as (a & <- & Ia).
      destruct X as (((F & _) & _) & Kx). destruct (Kx a Ia) as (k & Ek & Nk & Wk). exists k. rewrite Forall_forall in F. destruct (F a Ia) as (Tk & _). auto. }
    assert (VMm : forall m v, In m ms -> In v (d_vals m) -> typed false v).
    { intros m v Im Iv. rewrite Forall_forall in M. destruct (M m Im) as (_ & _ & _ & _ & V). destruct (V v Iv) as (y & a & Y & Ia & Va). apply WX in Y.
      destruct Y as (((F & _) & _) & _). rewrite Forall_forall in F. destruct (F a Ia) as (_ & Tv & _). rewrite Forall_forall in Tv. auto. }
    assert (VS : Forall2 vsame ms ms').
    { clear - Sm KM VMm. induction Sm as [|m m' ms ms' Q Sm IH]; constructor.
      - apply same_vsame; [destruct (KM m (or_introl eq_refl)) as (k & E & _); eauto| |exact Q].
        intros v Iv. specialize (VMm m v (or_introl eq_refl) Iv). destruct v; [destruct VMm|eauto].
      - apply IH; [intros x I; apply KM; now right|intros x v I; apply VMm; now right]. }
    assert (D1 : Forall (delta_ok false false) ms).
    { apply Forall_forall. intros m Im. destruct (KM m Im) as (k & _ & _ & _ & Tk). split; [exact Tk|]. split; [apply Forall_forall; intros v; apply (VMm m v Im)|].
      rewrite Forall_forall in M. destruct (M m Im) as (_ & _ & _ & N & _). exact N. }
    assert (D2 : Forall (delta_ok false false) ms').
    { apply Forall_forall. intros m' Im'. destruct (F2_In_r _ _ _ _ VS Im') as (m & Im & (_ & Ek & Ev)). destruct (F2_In_r _ _ _ _ Sm Im') as (m2 & _ & (_ & _ & _ & N & _)).
      destruct (KM m Im) as (k & _ & _ & _ & Tk). split; [now rewrite Ek|]. split; [|exact N]. apply Forall_forall. intros v Iv. apply (VMm m v Im). now apply Ev. }
    destruct (represents_some lower ea) as (A & R).
    destruct (patch_same lower false false ms ms' VS D1 D2 ea ea A Oa Oa R R e1 Pt) as (f1 & A1 & P1 & Dn1 & O' & R1 & R2).
    exists f1. split; [exact P1|]. split; [exact Dn1|]. split.
    - split; [now rewrite Dn1|]. intros k v. rewrite <- H. specialize (R1 k). specialize (R2 k). destruct (A1 (lowv lower k)) as [P|].
      + destruct R1 as (_ & R1), R2 as (_ & R2). now rewrite <- R2, R1.
      + split; intros (a & Ia & La & _); [destruct R2|destruct R1]; exists a; auto.
    - apply written_from; [exact O'|]. intros a Ia. assert (HA : has lower f1 (s_key a)) by (exists a; auto).
      destruct O' as (F' & _). rewrite Forall_forall in F'. destruct (F' a Ia) as (Ta & _). destruct (s_key a) as [|k] eqn:Ek; [destruct Ta|].
      destruct (patch_has lower false false ms' ea f1 (PBytes k) Oa D2 P1 HA) as [(b & Ib & Lb)|(m' & Im' & Lb)].
      + destruct Wa as (_ & Ka). destruct (Ka b Ib) as (k' & Eb & Nk & Wk). rewrite Eb in Lb. cbn [lowv] in Lb. exists k, k'. split; [reflexivity|]. split; [congruence|auto].
      + destruct (F2_In_r _ _ _ _ VS Im') as (m & Im & (_ & Em & _)). destruct (KM m Im) as (k' & Ekm & Nk & Wk & _). rewrite Em, Ekm in Lb. cbn [lowv] in Lb.
        exists k, k'. split; [reflexivity|]. split; [congruence|auto].
  Qed.

  (** *** The text of all operations *)
  Lemma ops_text ops ops' : Forall2 reread ops ops' -> exists ts, (forall w, write_ops lower oc ops w = (w ++ concat ts, None)) /\
    (Forall short_lines ts -> forall s, idle0 s -> exists s', process lower io vio true (concat ts) s = (map rec ops', Ok ([], s')) /\ idle0 s' /\ (p_mode s = WAIT_FOR_DN -> p_mode s' = WAIT_FOR_DN)).
  Proof.
    induction 1 as [|op op' ops ops' (_ & t & Tx & P) F (ts & W & Q)].
    - exists []. split; [intros w; cbn; now rewrite app_nil_r|]. intros _ s I. exists s. split; [reflexivity|auto].
    - exists (t :: ts). split.
      + intros w. cbn [write_ops concat]. rewrite Tx, W. now rewrite <- app_assoc.
      + intros SL s I. cbn [concat map]. rewrite process_app, (P (Forall_inv SL) s I). cbn [app].
        destruct (Q (Forall_inv_tail SL) (waiting s) (waiting_idle s I)) as (s' & E & I' & M). rewrite E. exists s'. split; [reflexivity|]. split; [exact I'|auto].
  Qed.
  Lemma op_of_rec ops : concat (map op_of (map rec ops)) = ops.
  Proof. induction ops as [|[d ms|e|d] ops IH]; [reflexivity|..]; cbn [map concat op_of rec app]; now rewrite IH. Qed.
  Lemma patches_text ops ops' : Forall2 reread ops ops' -> exists p, diff_output lower oc ops = (p, Exit0) /\ (short_lines p -> patches lower io vio p = Ok ops').
  Proof.
    intros F. destruct (ops_text ops ops' F) as (ts & W & P). exists (ldif_header ++ concat ts). unfold diff_output. rewrite W. split; [reflexivity|].
    intros SL. unfold patches.
    assert (E : parse lower io vio true [ldif_header ++ concat ts] = (map rec ops', Ok tt)).
    { rewrite parse_is. cbn [concat]. rewrite app_nil_r. unfold LdifProofs.parse_text. rewrite process_app, header_process by reflexivity. cbn [app].
      destruct (P (short_concat _ _ SL) (set_version (Some 1) (waiting p0))) as (s' & E & _ & M); [unfold idle0; cbn; tauto|]. rewrite E. cbn [snd].
      unfold connectionLost. now rewrite M. }
    match goal with |- context [parse lower io vio true ?x] => change x with [ldif_header ++ concat ts] end.
    rewrite E. now rewrite op_of_rec.
  Qed.
End Ops.

(** ** The two tools *)
Section Tools.
  Variable lower : str -> str.
  Variable io : Z -> Z -> res Z.
  Variable vio : str -> res Z.
  Variable oc : bool.
  Variable hash_pair : str * str -> Z.
  Variable hash_tuple : list Z -> Z.
  Variable depth : nat.
  Hypothesis lower_std : forall s, ascii s -> lower s = ascii_lower s.
  Hypothesis LOC : LdifSpec.lower_oc lower.
  Notation same := (same_dn lower).

  Lemma rd_same a b : rd_ok lower a -> rd_ok lower b -> rdn_eqb lower a b = true -> a = b.
  Proof.
    intros ((_ & _ & La) & _) ((_ & _ & Lb) & _) E. apply rdn_eqb_spec in E. revert La Lb. induction E as [|x y a b (T & V) E IH]; intros La Lb; [reflexivity|].
    inversion La as [|? ? (L1 & L2) La']; inversion Lb as [|? ? (L3 & L4) Lb']; subst. f_equal; [|auto]. destruct x, y; cbn in *; congruence.
  Qed.

  Definition cands (hA hB : heap) (LA LB : list ref) : list top :=
    map (fun r => TAdd (ent_at hB r)) LB ++ map (fun r => TDelete (e_dn (ent_at hA r))) LA ++
    flat_map (fun a => flat_map (fun b =>
      if dn_eqb lower (e_dn (ent_at hA a)) (e_dn (ent_at hB b)) then
        match diff lower (ent_at hA a) (ent_at hB b) with Ok (Some ms) => [TModify (e_dn (ent_at hA a)) ms] | _ => [] end
      else []) LB) LA.
  Lemma cands_came hA hB LA LB op : In op (cands hA hB LA LB) <-> came lower hA hB LA LB op.
  Proof.
    unfold cands. rewrite !in_app_iff, !in_map_iff, in_flat_map. split.
    - intros [(r & <- & I)|[(r & <- & I)|(a & Ia & J)]].
      + cbn [came]. exists r. auto.
      + cbn [came]. exists (ent_at hA r). split; [exists r; auto|reflexivity].
      + apply in_flat_map in J as (b & Ib & J). destruct (dn_eqb lower (e_dn (ent_at hA a)) (e_dn (ent_at hB b))) eqn:E; [|destruct J].
        destruct (diff lower (ent_at hA a) (ent_at hB b)) as [[ms|]|] eqn:D; [|destruct J|destruct J]. destruct J as [<-|[]]. cbn [came].
        exists (ent_at hA a), (ent_at hB b). split; [exists a; auto|]. split; [exists b; auto|]. split; [now apply dn_eqb_spec|auto].
    - destruct op as [d ms|e|d]; cbn [came].
      + intros (ea & eb & (a & Ia & <-) & (b & Ib & <-) & S & -> & D). right. right. exists a. split; [exact Ia|]. apply in_flat_map. exists b. split; [exact Ib|].
        apply dn_eqb_spec in S. rewrite S, D. now left.
      + intros (r & I & <-). left. eauto.
      + intros (e & (r & I & <-) & ->). right. left. eauto.
  Qed.

  Lemma diff_then_patch tA tB esA esB :
    parse lower io vio false [tA] = (map REntry esA, Ok tt) -> parse lower io vio false [tB] = (map REntry esB, Ok tt) ->
    esA <> [] -> esB <> [] -> same (e_dn (hd (mkEntry [] []) esA)) (e_dn (hd (mkEntry [] []) esB)) ->
    in_order lower esA -> in_order lower esB -> rdns_ok (canonical lower) depth esA -> rdns_ok (canonical lower) depth esB ->
    Forall plain_entry esA -> Forall plain_entry esB -> (forall e, In e esB -> e_attrs e <> []) -> one_spelling lower esA esB ->
    exists p, ldifdiff lower io vio oc hash_pair hash_tuple depth tA tB = (p, Exit0) /\
      (short_lines p -> exists t, ldifpatch lower io vio oc depth tA p = (t, Exit0) /\
        (short_lines t -> exists h L, fromLDIFFile lower io vio oc depth t = LDone h /\ tree h L /\ is_directory lower depth h esB)).
  Proof.
    intros PA PB NA NB S0 OA OB RA RB PlA PlB Full SP.
    destruct (loaded lower io vio oc depth tA esA PA NA OA RA PlA) as (hA & LA & FA & IA & OcA & MA & MA').
    destruct (loaded lower io vio oc depth tB esB PB NB OB RB PlB) as (hB & LB & FB & IB & OcB & MB & MB').
    set (rtA := e_dn (hd (mkEntry [] []) esA)) in *. set (rtB := e_dn (hd (mkEntry [] []) esB)) in *.
    rewrite Forall_forall in OcA, OcB, PlA, PlB.
    assert (WA : forall e, ents hA LA e -> written lower e /\ ldif_dn_ok (e_dn e) /\ (length (e_dn e) < depth)%nat).
    { intros e E. destruct (MA e E) as (e0 & I0 & M). split; [|exact (proj2 (proj2 M))]. apply (made_written lower oc depth e e0 (OcA _ I0) (PlA _ I0) M). }
    assert (WB : forall e, ents hB LB e -> written lower e /\ ldif_dn_ok (e_dn e) /\ (length (e_dn e) < depth)%nat /\ exists k v, says e k v).
    { intros e E. destruct (MB e E) as (e0 & I0 & M). destruct (made_written lower oc depth e e0 (OcB _ I0) (PlB _ I0) M) as (W & (_ & H) & _). split; [exact W|].
      destruct M as (_ & _ & D & Ln). split; [exact D|]. split; [exact Ln|]. destruct (OcB _ I0) as (O & _). specialize (Full e0 I0). destruct (e_attrs e0) as [|a r] eqn:Ea; [congruence|].
      assert (Ia : In a (e_attrs e0)) by (rewrite Ea; now left). rewrite <- Ea in O. destruct (O a Ia) as ((k & Ek) & NE & V). destruct (s_vals a) as [|v r'] eqn:Ev; [congruence|].
      destruct (V v (or_introl eq_refl)) as (vb & ->). exists k, vb. apply (says_holds lower); [exact (written_octets lower e W)|]. apply H. exists a. split; [exact Ia|]. split; [now rewrite Ek|]. rewrite Ev. now left. }
    assert (CM : forall e f, ents hA LA e -> ents hB LB f -> same (e_dn e) (e_dn f) -> comparable lower e f).
    { intros e f E F Sd. exists false, false. split; [apply (WA e E)|]. split; [apply (WB f F)|].
      destruct (MA e E) as (e0 & I0 & M0), (MB f F) as (f0 & J0 & N0).
      exact (made_spelling lower oc depth esA esB e f e0 f0 SP I0 J0 (OcA _ I0) (OcB _ J0) (PlA _ I0) (PlB _ J0) M0 N0 Sd). }
    destruct (choose (reread lower io vio oc) (cands hA hB LA LB)) as (tr & TR).
    { intros op J. apply cands_came in J. destruct op as [d ms|e|d]; cbn [came] in J.
      - destruct J as (ea & eb & Ea & Eb & Sd & -> & Df). destruct (WA ea Ea) as (W1 & D1 & _). destruct (WB eb Eb) as (W2 & _). now apply (reread_modify lower io vio oc ea eb).
      - destruct (WB e J) as (W & D & _ & Sy). now apply reread_add.
      - destruct J as (e & E & ->). destruct (WA e E) as (_ & D & _). now apply reread_delete. }
    assert (TR' : forall op, came lower hA hB LA LB op -> reread lower io vio oc op (tr op)) by (intros op J; apply TR; now apply cands_came).
    pose proof (rd_consistent lower) as CC. pose proof (root_region lower (rd_ok lower) CC) as RR.
    pose proof (i_tree _ _ _ _ IA) as TA. pose proof (i_tree _ _ _ _ IB) as TB.
    destruct (i_root _ _ _ _ IA) as (na & Na & _ & Dna). destruct (i_root _ _ _ _ IB) as (nb & Nb & _ & Dnb).
    assert (NDK : forall n, n_dn n = e_dn (n_entry n)) by reflexivity. rewrite NDK in Dna, Dnb. clear NDK.
    destruct (tree_diff_via lower oc hash_pair hash_tuple depth (rd_ok lower) CC rd_same (likew lower) (fun e f H => proj1 (proj1 H)) tr rtA rtB hA hB LA LB IA IB)
      with (a := 0%nat) (b := 0%nat) (ea := n_entry na) (eb := n_entry nb) as (ops & h' & os & a' & L' & Df & Cm & Pt & Os & I' & B' & (e' & Ea' & Sa') & SE & _).
    { intros e E. apply (RR rtA hA LA IA) in E. apply (WA e E). }
    { intros e E. apply (RR rtB hB LB IB) in E. apply (WB e E). }
    { intros f d E Sd. apply (RR rtB hB LB IB) in E. destruct (TR' (TAdd f) E) as (SO & _). destruct (tr (TAdd f)) as [| f' |]; cbn [same_op] in SO; try contradiction.
      destruct SO as (Sf & Of). destruct (copy_again lower oc f f' d (proj1 (WB f E)) Sd Sf Of) as (its & It & Lk). exists f', its. split; [reflexivity|]. split; [apply Sf|auto]. }
    { intros e E. apply (RR rtA hA LA IA) in E. destruct (TR' (TDelete (e_dn e))) as (SO & _); [cbn [came]; eauto|].
      destruct (tr (TDelete (e_dn e))) as [| |d']; cbn [same_op] in SO; try contradiction. now subst. }
    { intros e f E F Sd. apply (RR rtA hA LA IA) in E. apply (RR rtB hB LB IB) in F. pose proof (CM e f E F Sd) as Cp.
      destruct (WA e E) as (We & _). destruct (WB f F) as (Wf & _). destruct Cp as (kt & vt & _ & _ & Spl).
      destruct (diff_patch lower false false e f (proj1 (proj1 We)) (proj1 (proj1 Wf)) Spl (proj2 (dn_eqb_spec lower _ _) Sd)) as [(e0 & D & Q & _)|(ms & e1 & D & _)].
      - left. split; [exact D|]. split; [|exact We]. split; [exact Sd|]. destruct (entry_eq_spec lower false false e f (proj1 (proj1 We)) (proj1 (proj1 Wf))) as (r & Er & R).
        rewrite Q in Er. apply Ok_inj in Er. subst r. apply (proj1 R eq_refl).
      - right. destruct (TR' (TModify (e_dn e) ms)) as (SO & _); [cbn [came]; exists e, f; auto|].
        destruct (tr (TModify (e_dn e) ms)) as [d' ms'| |] eqn:ET; cbn [same_op] in SO; try contradiction. destruct SO as (-> & Sm).
        destruct (patch_again lower e f ms ms' We Wf (CM e f E F Sd) Sd D Sm) as (e2 & P2 & D2 & L2). exists ms, ms', e2. split; [exact D|]. split; [exact ET|]. split; [exact P2|]. split; [exact D2|exact L2]. }
    { constructor. } { constructor. } { exists na. auto. } { exists nb. auto. } { now rewrite Dna, Dnb. }
    unfold ldifdiff. rewrite FA, FB, Df.
    assert (RO : Forall2 (reread lower io vio oc) ops (map tr ops)).
    { clear - Cm TR'. induction Cm as [|op ops J Cm IH]; [constructor|]. cbn [map]. constructor; auto. }
    destruct (patches_text lower io vio oc ops (map tr ops) RO) as (p & Po & Pp). exists p. split; [exact Po|]. intros SLp.
    unfold ldifpatch. rewrite FA, (Pp SLp), Pt. cbn [fst].
    pose proof (i_tree _ _ _ _ I') as T'.
    assert (a' = 0%nat) as ->.
    { destruct (i_root _ _ _ _ I') as (n0 & N0 & _ & D0). pose proof (below_in h' L' T' 0%nat a' B' (t_root h' L' T')) as Ia'.
      apply (unique0 lower h' L' T' (siblings lower (rd_ok lower) CC rtA h' L' I') a' 0%nat Ia' (t_root h' L' T')).
      destruct Ea' as (n' & N' & <-). unfold dn_at. rewrite N', N0, D0, <- Dna. exact Sa'. }
    destruct SE as (SE1 & SE2).
    assert (EL : forall c, In c L' -> exists f, ents hB LB f /\ likew lower (ent_at h' c) f).
    { intros c Ic. destruct (SE1 (ent_at h' c)) as (f & Ff & Lf); [apply (RR rtA h' L' I'); exists c; auto|]. exists f. split; [now apply (RR rtB hB LB IB)|exact Lf]. }
    assert (DL : forall c, In c L' -> (length (dn_at h' c) < depth)%nat).
    { intros c Ic. destruct (EL c Ic) as (f & Ff & ((Sd & _) & _)). rewrite <- dn_at_ent, (same_len lower _ _ Sd). apply (WB f Ff). }
    assert (D0 : ldif_dn_ok rtA).
    { rewrite <- Dna. apply (WA (n_entry na)). exists 0%nat. split; [apply (t_root hA LA TA)|]. unfold ent_at. now rewrite Na. }
    assert (LE : forall c, In c L' -> ldif_entry_ok lower (ent_at h' c)).
    { intros c Ic. destruct (EL c Ic) as (f & _ & (_ & W)). apply written_ldif; [exact W|]. rewrite dn_at_ent. now apply (all_dns lower rtA h' L' I' D0). }
    set (f := fun c => match entry_toWire lower oc (ent_at h' c) with Ok t => t | Err _ => [] end).
    destruct (output_dump lower oc h' L' T' f) with (depth := depth) as (t & Dt & Ot).
    { intros c Ic. unfold f. destruct (entry_process lower io vio oc LOC (ent_at h' c) (LE c Ic)) as (w & _ & W & _). now rewrite W. }
    { exact DL. }
    exists t. split; [exact Ot|].
    destruct (dump_load lower io vio oc depth (rd_ok lower) CC LOC h' L' T') as (t2 & Dt2 & LD).
    { intros r s Ir Is Sd. exact (unique0 lower h' L' T' (siblings lower (rd_ok lower) CC rtA h' L' I') r s Ir Is Sd). }
    { exact DL. }
    { intros c rd q Ic Nz Ed. destruct (t_up h' L' T' c Ic Nz) as (pp & Ip & Kp). destruct (dn_at_kid (rd_ok lower) rtA h' L' I' pp c Ip Kp) as (rd' & Ed' & Cr & _). congruence. }
    { intros c e Ic (n & N & <-). pose proof (LE c Ic) as Q. unfold ent_at in Q. now rewrite N in Q. }
    rewrite Dt in Dt2. apply Ok_inj in Dt2. subst t2. intros SLt. destruct (LD SLt) as (hF & LF & Fl & TF & H1 & H2). exists hF, LF. split; [exact Fl|]. split; [exact TF|]. split.
    - intros e0 I0. destruct (MB' e0 I0) as (fB & FBn & M). destruct (SE2 fB) as (e & E & ((Sd & Hs) & We)); [now apply (RR rtB hB LB IB)|].
      apply (RR rtA h' L' I') in E as (c & Ic & Ec).
      assert (EA : entry_at h' c e) by (destruct (t_node h' L' T' c Ic) as (n & N); exists n; split; [exact N|]; rewrite <- Ec; unfold ent_at; now rewrite N).
      destruct (H1 c e Ic EA) as (r & e2 & LK & A2 & S2 & Sy). assert (SX : same (e_dn e) (e_dn e0)) by (eapply same_trans; [exact Sd|apply M]).
      exists r, e2. split; [rewrite <- LK; apply lookup_same; now apply same_sym|]. split; [exact A2|]. split; [eapply same_trans; [exact S2|exact SX]|].
      intros k v. rewrite Sy. destruct (made_written lower oc depth fB e0 (OcB _ I0) (PlB _ I0) M) as (Wf & (_ & H) & _).
      assert (A0 : all_octets e0) by (intros a Ia; destruct (proj1 (OcB _ I0) a Ia) as (X & _ & Y); auto).
      rewrite (says_holds lower e k v (written_octets lower e We)), (says_holds lower e0 k v A0). rewrite Hs. apply H.
    - intros d Dd NM. apply H2; [exact Dd|]. intros c Ic Sc. apply NM. destruct (EL c Ic) as (fB & FBn & ((Sd & _) & _)). destruct (MB fB FBn) as (e0 & I0 & M).
      exists e0. split; [exact I0|]. eapply same_trans; [apply same_sym, M|]. eapply same_trans; [apply same_sym, Sd|]. now rewrite dn_at_ent.
  Qed.
End Tools.
