(** Comparing filters (C81). *)
From Coq Require Import Permutation.
From Verif Require Import BaseFacts BerModel BerProofs Utf8Model DnModel DnProofs EntryModel SortFacts LdapModel LdapSpec LdapProofs
  MatchModel MatchSpec MatchProofs FilterEqModel FilterEqSpec.

Definition fok (f : filter) : Prop := exists w, toWire (filter_obj f) = Ok w.
Definition fw (f : filter) : bytes := match toWire (filter_obj f) with Ok w => w | Err _ => [] end.
Lemma fw_ok f : fok f -> toWire (filter_obj f) = Ok (fw f).
Proof. intros (w & E). unfold fw. now rewrite E. Qed.

Lemma wire_inj f g w : toWire (filter_obj f) = Ok w -> toWire (filter_obj g) = Ok w -> f = g.
Proof.
  intros F G. destruct (filter_roundtrip f w [] F) as (o & D & R). destruct (filter_roundtrip g w [] G) as (o' & D' & R').
  rewrite D in D'. injection D' as ->. congruence.
Qed.

(** and, or *)
Lemma members_obj f l : members f = Some l -> exists k t, filter_obj f = OSeq k t (map filter_obj l) /\ filter_set (filter_obj f) = true /\
  (f = FAnd l \/ f = FOr l).
Proof. destruct f; cbn [members]; try discriminate; intros [= <-]; do 2 eexists; (split; [reflexivity|]); split; auto. Qed.
Lemma single_obj f : members f = None -> filter_set (filter_obj f) = false.
Proof. destruct f; cbn [members]; try discriminate; reflexivity. Qed.

Lemma F2_ok {A} (P : A -> res bytes) l ps : Forall2 (fun r p => r = Ok p) (map P l) ps -> Forall (fun x => exists w, P x = Ok w) l.
Proof.
  revert ps. induction l as [|x l IH]; cbn [map]; intros ps F; constructor; inversion F; subst; eauto.
Qed.
Lemma seq_parts k t l : (exists w, toWire (OSeq k t (map filter_obj l)) = Ok w) -> Forall fok l.
Proof.
  intros (w & W). cbn [toWire] in W. apply w_seq_inv in W as (ps & F & _). rewrite map_map in F. apply F2_ok in F. exact F.
Qed.
Lemma fok_members f l : members f = Some l -> fok f -> Forall fok l.
Proof. intros P K. apply members_obj in P as (k & t & E & _). unfold fok in K. rewrite E in K. eapply seq_parts, K. Qed.

Lemma fsort_eq l : Forall fok l ->
  sort_wire (map filter_obj l) = Ok (map filter_obj (sort_by (fun x y => bytes_leb (fw x) (fw y)) l)).
Proof.
  intros K. unfold sort_wire.
  assert (mapR (fun o => do w <- toWire o; Ok (w, o)) (map filter_obj l) = Ok (map (fun f => (fw f, filter_obj f)) l)) as ->.
  { induction K as [|f l F K IH]; [reflexivity|]. cbn [map mapR]. rewrite (fw_ok f F). cbn [bind]. rewrite IH. reflexivity. }
  cbn [bind]. f_equal.
  assert (S : forall m, sort_by (fun x y => bytes_leb (fst x) (fst y)) (map (fun f => (fw f, filter_obj f)) m) =
    map (fun f => (fw f, filter_obj f)) (sort_by (fun x y => bytes_leb (fw x) (fw y)) m)).
  { induction m as [|f m IH]; [reflexivity|]. cbn [map sort_by fold_right]. unfold sort_by in IH. rewrite IH.
    generalize (fold_right (insert_by (fun x y => bytes_leb (fw x) (fw y))) [] m). intros s.
    induction s as [|g s IHs]; [reflexivity|]. cbn [map insert_by fst]. destruct (bytes_leb (fw f) (fw g)); [reflexivity|].
    cbn [map]. now rewrite IHs. }
  rewrite S, map_map. apply map_ext. reflexivity.
Qed.
Definition fsort (l : list filter) : list filter := sort_by (fun x y => bytes_leb (fw x) (fw y)) l.
Lemma fsort_perm l : Permutation l (fsort l).
Proof. apply sort_perm. Qed.
Lemma fsort_same l m : Forall fok l -> Permutation l m -> fsort l = fsort m.
Proof.
  intros K P. apply sort_unique; auto.
  - intros x y. apply bytes_leb_total.
  - intros x y z. apply bytes_leb_trans.
  - intros x y I J A B. rewrite Forall_forall in K. apply (wire_inj x y (fw x)); [apply fw_ok, K, I|].
    rewrite (bytes_leb_antisym _ _ A B). apply fw_ok, K, J.
Qed.

(** Lists *)
Lemma lists_eq_refl eq l : (forall x, In x l -> eq x x = Ok true) -> lists_eq eq l l = Ok true.
Proof.
  intros H. unfold lists_eq. rewrite Z.eqb_refl. induction l as [|x l IH]; [reflexivity|]. cbn [pairs_eq].
  rewrite (H x (or_introl eq_refl)). cbn [bind]. apply IH. intros y I. apply H. now right.
Qed.
Lemma lists_eq_true eq (l m : list filter) : lists_eq eq (map filter_obj l) (map filter_obj m) = Ok true ->
  Forall2 (fun f g => eq (filter_obj f) (filter_obj g) = Ok true) l m.
Proof.
  unfold lists_eq. destruct (Z.eqb_spec (zlen (map filter_obj l)) (zlen (map filter_obj m))) as [E|]; [|discriminate].
  assert (L : length l = length m) by (unfold zlen in E; rewrite !map_length in E; lia). clear E.
  revert m L. induction l as [|f l IH]; intros [|g m] L; cbn [map pairs_eq length] in *; try discriminate; [constructor|].
  rewrite bind_ok. intros (b & E & H). destruct b; [|discriminate]. constructor; auto.
Qed.

(** Lengths *)
Lemma concat_len (l m : list bytes) : Permutation l m -> zlen (concat l) = zlen (concat m).
Proof.
  induction 1; cbn [concat]; [reflexivity| | |congruence]; rewrite ?zlen_app in *; lia.
Qed.
Lemma wires_ok l : Forall fok l -> mapM (fun p => p) (map toWire (map filter_obj l)) = Ok (map fw l).
Proof.
  induction 1 as [|f l F K IH]; [reflexivity|]. cbn [map mapM]. rewrite (fw_ok f F). cbn [bind]. rewrite IH. reflexivity.
Qed.
Lemma same_len k t k' t' l m w : Forall fok l -> Permutation l m -> toWire (OSeq k t (map filter_obj l)) = Ok w ->
  exists w', toWire (OSeq k' t' (map filter_obj m)) = Ok w' /\ zlen w' = zlen w.
Proof.
  intros K P W. assert (K' : Forall fok m) by (rewrite Forall_forall in *; intros x I; apply K; apply (Permutation_in _ (Permutation_sym P)), I).
  cbn [toWire] in *. unfold w_seq in *. rewrite (wires_ok l K) in W. rewrite (wires_ok m K'). cbn [bind] in *.
  unfold tlv in *. rewrite <- (concat_len (map fw l) (map fw m) (Permutation_map fw P)). destruct (int2berlen (zlen (concat (map fw l)))) as [x|]; [|discriminate].
  cbn [bind] in *. apply Ok_inj in W. subst w. eexists. split; [reflexivity|]. rewrite !zlen_cons, !zlen_app, (concat_len (map fw l) (map fw m) (Permutation_map fw P)). reflexivity.
Qed.

Lemma tlv_len2 i c w : tlv i c = Ok w -> 2 + zlen c <= zlen w.
Proof.
  unfold tlv, int2berlen. destruct (Z.ltb_spec (zlen c) 0); [discriminate|].
  destruct (int2ber_unsigned (zlen c)) as (e & E & N & _); [assumption|]. rewrite E. cbn [bind].
  rewrite bind_ok. intros (l & L & W). apply Ok_inj in W. subst w.
  rewrite zlen_cons, zlen_app. enough (1 <= zlen l) by lia.
  destruct l; [|unfold zlen; cbn [length]; lia]. exfalso. apply N.
  destruct (zlen c <=? 127); [congruence|]. destruct (negb (zlen e >? 0)); [discriminate|]. destruct (negb (zlen e <=? 127)); discriminate.
Qed.
Lemma toWire_pos o w : toWire o = Ok w -> 2 <= zlen w.
Proof. intros W. apply toWire_tlv in W as (i & c & _ & T). apply tlv_len2 in T. unfold zlen in *. lia. Qed.
Lemma w_seq_len tag p ps w : w_seq tag (p :: ps) = Ok w -> (forall x, p = Ok x -> 2 <= zlen x) -> 2 < zlen w.
Proof.
  intros W H. apply w_seq_inv in W as (qs & F & T). inversion F as [|? q ? qs' E F']; subst. specialize (H q eq_refl).
  apply tlv_len2 in T. cbn [concat] in T. rewrite zlen_app in T. unfold zlen in *. lia.
Qed.

(** == is one way: what compares equal differs at most in the order of parts and in and/or. *)
Lemma eq_confused n : forall f g, obj_eq n (filter_obj f) (filter_obj g) = Ok true -> confused f g.
Proof.
  induction n as [|n IH]; intros f g; cbn [obj_eq]; [discriminate|].
  destruct (members f) as [l|] eqn:M.
  - destruct (members_obj f l M) as (k & t & E & -> & F). intros H.
    apply bind_ok in H as (wa & Wa & H). apply bind_ok in H as (wb & Wb & H).
    destruct (Z.eqb_spec (zlen wa) (zlen wb)) as [L|]; cbn [negb] in H; [|discriminate].
    rewrite E in H. cbn [iter_of data_of bind] in H.
    assert (K : Forall fok l) by (apply (fok_members f l M); eexists; exact Wa).
    rewrite (fsort_eq l K) in H. cbn [bind] in H. fold (fsort l) in H.
    destruct (members g) as [m|] eqn:Mg.
    + destruct (members_obj g m Mg) as (k' & t' & E' & _ & G). rewrite E' in H. cbn [iter_of data_of bind] in H.
      assert (K' : Forall fok m) by (apply (fok_members g m Mg); eexists; exact Wb).
      rewrite (fsort_eq m K') in H. cbn [bind] in H. fold (fsort m) in H. apply lists_eq_true in H.
      assert (C : Forall2 confused (fsort l) (fsort m)) by (clear - IH H; induction H; constructor; auto).
      destruct (Permutation_Forall2 (Permutation_sym (fsort_perm l)) C) as (m' & P & C').
      apply (co_members f g l m m' M Mg); [|exact C']. eapply Permutation_trans; [|apply Permutation_sym, fsort_perm]. symmetry. exact P.
    + exfalso. assert (Il : iter_of (filter_obj g) = Ok [] /\ 2 < zlen wb).
      { destruct g; cbn [members] in Mg; try discriminate; cbn [filter_obj iter_of data_of bind] in H; try discriminate; (split; [reflexivity|]);
          cbn [filter_obj toWire] in Wb.
        - apply w_seq_len in Wb; [exact Wb|]. intros x. apply toWire_pos.
        - apply w_seq_len in Wb; [exact Wb|]. intros x. apply (toWire_pos (octets attr)).
        - apply w_seq_len in Wb; [exact Wb|]. intros x. apply toWire_pos.
        - apply w_seq_len in Wb; [exact Wb|]. intros x. apply toWire_pos.
        - apply w_seq_len in Wb; [exact Wb|]. intros x. apply toWire_pos.
        - destruct rule, attr; cbn [option_map app] in Wb; (apply w_seq_len in Wb; [exact Wb|]; intros x X; eapply (toWire_pos (OStr KOctet _ _)); exact X). }
      destruct Il as (Il & Lb). rewrite Il in H. cbn [bind] in H.
      unfold sort_wire in H. cbn [mapR bind map sort_by fold_right] in H. unfold lists_eq in H.
      destruct (fsort l) as [|x s] eqn:Q; [|cbn [map] in H; destruct (Z.eqb_spec (zlen (filter_obj x :: map filter_obj s)) (zlen (@nil obj))) as [Z|]; [unfold zlen in Z; cbn [length] in Z; lia|discriminate]].
      pose proof (fsort_perm l) as P. rewrite Q in P. apply Permutation_sym, Permutation_nil in P. subst l.
      rewrite E in Wa. cbn [map toWire] in Wa. unfold w_seq, tlv in Wa. cbn [mapM concat bind] in Wa. vm_compute in Wa. apply Ok_inj in Wa. subst wa. unfold zlen in L, Lb. cbn [length] in L. lia.
  - rewrite (single_obj f M). intros H. apply bind_ok in H as (wa & Wa & H). apply bind_ok in H as (wb & Wb & H).
    apply Ok_inj in H. apply (reflect_iff _ _ (bytes_eqb_spec wa wb)) in H. subst wb. rewrite (wire_inj f g wa Wa Wb). constructor.
Qed.

(** The other way: the same parts in any order, whichever the connectives. *)
Lemma depth_part f l g : members f = Some l -> In g l -> (set_depth (filter_obj g) < set_depth (filter_obj f))%nat.
Proof.
  intros M I. destruct (members_obj f l M) as (k & t & -> & _). cbn [set_depth]. rewrite map_map.
  clear M. induction l as [|x l IH]; [destruct I|]. cbn [map fold_right]. destruct I as [->|I]; [lia|]. specialize (IH I). lia.
Qed.
Lemma obj_eq_refl n : forall f, fok f -> (set_depth (filter_obj f) < n)%nat -> obj_eq n (filter_obj f) (filter_obj f) = Ok true.
Proof.
  induction n as [|n IH]; intros f K D; [lia|]. cbn [obj_eq]. destruct (members f) as [l|] eqn:M.
  - destruct (members_obj f l M) as (k & t & E & -> & F). rewrite (fw_ok f K). cbn [bind]. rewrite Z.eqb_refl. cbn [negb].
    pose proof (fok_members f l M K) as Kl. rewrite E. cbn [iter_of data_of bind]. rewrite (fsort_eq l Kl). cbn [bind].
    apply lists_eq_refl. intros x I. apply in_map_iff in I as (g & <- & I). apply (Permutation_in _ (Permutation_sym (fsort_perm l))) in I.
    apply IH; [rewrite Forall_forall in Kl; auto|]. pose proof (depth_part f l g M I). lia.
  - rewrite (single_obj f M), (fw_ok f K). cbn [bind]. f_equal. apply (reflect_iff _ _ (bytes_eqb_spec _ _)). reflexivity.
Qed.
Lemma eq_members f g l m : members f = Some l -> members g = Some m -> Permutation l m -> fok f ->
  py_eq (filter_obj f) (filter_obj g) = Ok true.
Proof.
  intros M Mg P K. unfold py_eq. cbn [obj_eq]. destruct (members_obj f l M) as (k & t & E & -> & F), (members_obj g m Mg) as (k' & t' & E' & _ & G).
  pose proof (fok_members f l M K) as Kl. rewrite (fw_ok f K). cbn [bind].
  assert (W : toWire (OSeq k t (map filter_obj l)) = Ok (fw f)) by (rewrite <- E; apply fw_ok, K).
  destruct (same_len k t k' t' l m (fw f) Kl P W) as (w' & W' & L). rewrite E', W'. cbn [bind]. rewrite L, Z.eqb_refl. cbn [negb].
  rewrite E. cbn [iter_of data_of bind]. rewrite (fsort_eq l Kl). cbn [bind].
  assert (Km : Forall fok m) by (rewrite Forall_forall in *; intros x I; apply Kl; apply (Permutation_in _ (Permutation_sym P)), I).
  rewrite (fsort_eq m Km). cbn [bind]. fold (fsort l) (fsort m). rewrite <- (fsort_same l m Kl P).
  apply lists_eq_refl. intros x I. apply in_map_iff in I as (h & <- & I). apply (Permutation_in _ (Permutation_sym (fsort_perm l))) in I.
  apply obj_eq_refl; [rewrite Forall_forall in Kl; auto|]. pose proof (depth_part f l h M I) as D. rewrite E in D. exact D.
Qed.
Lemma eq_single f g : single f -> fok f -> fok g -> exists r, py_eq (filter_obj f) (filter_obj g) = Ok r /\ (r = true <-> f = g).
Proof.
  intros S K K'. unfold py_eq. cbn [obj_eq]. rewrite (single_obj f S), (fw_ok f K), (fw_ok g K'). cbn [bind]. eexists. split; [reflexivity|].
  rewrite <- (reflect_iff _ _ (bytes_eqb_spec _ _)). split.
  - intros Q. apply (wire_inj f g (fw f)); [apply fw_ok, K|rewrite Q; apply fw_ok, K'].
  - intros ->. reflexivity.
Qed.
Lemma ne_iff f g : fok f -> fok g -> exists r, py_ne (filter_obj f) (filter_obj g) = Ok r /\ (r = true <-> f <> g).
Proof.
  intros K K'. unfold py_ne. rewrite (fw_ok f K), (fw_ok g K'). cbn [bind]. eexists. split; [reflexivity|].
  destruct (bytes_eqb_spec (fw f) (fw g)) as [Q|Q]; cbn [negb]; split; try congruence.
  intros N. exfalso. apply N. apply (wire_inj f g (fw f)); [apply fw_ok, K|rewrite Q; apply fw_ok, K'].
Qed.

(** and/or of single filters: exactly the same parts. *)
Lemma confused_single f g : confused f g -> single f -> f = g.
Proof. intros C S. destruct C as [|f g l m m' M]; [reflexivity|]. unfold single in S. congruence. Qed.
Lemma flat_exact f g l m : members f = Some l -> members g = Some m -> Forall single l -> fok f ->
  py_eq (filter_obj f) (filter_obj g) = Ok true <-> Permutation l m.
Proof.
  intros M Mg S K. split; [|intros P; eapply eq_members; eauto]. intros H. apply eq_confused in H.
  inversion H as [h|f' g' l' m0 m' M' Mg' P C]; subst.
  - rewrite M in Mg. injection Mg as ->. reflexivity.
  - rewrite M in M'. rewrite Mg in Mg'. injection M' as <-. injection Mg' as <-. rewrite <- P. clear - S C.
    revert m' C. induction S as [|x l S F IH]; intros m' C; inversion C; subst; [constructor|]. rewrite (confused_single x y) by assumption. constructor. auto.
Qed.

(** Equal filters with one connective select the same entries. *)
Lemma no_or_all l : (fix all l := match l with [] => True | g :: r => no_or g /\ all r end) l <-> Forall no_or l.
Proof. induction l as [|g l IH]; [split; auto|]. rewrite IH. split; [intros (A & B); auto|intros F; inversion F; auto]. Qed.
Lemma no_and_all l : (fix all l := match l with [] => True | g :: r => no_and g /\ all r end) l <-> Forall no_and l.
Proof. induction l as [|g l IH]; [split; auto|]. rewrite IH. split; [intros (A & B); auto|intros F; inversion F; auto]. Qed.
Lemma confused_lists (Q : filter -> Prop) l m' : Forall (fun f => forall g, confused f g -> Q f -> Q g -> reordered f g) l ->
  Forall2 confused l m' -> Forall Q l -> Forall Q m' -> Forall2 reordered l m'.
Proof.
  intros IH C. revert IH. induction C as [|x y l m' C Cs IHs]; intros IH Fl Fm; [constructor|].
  inversion IH; inversion Fl; inversion Fm; subst. constructor; auto.
Qed.
Lemma perm_Forall {A} (Q : A -> Prop) l m : Permutation l m -> Forall Q m -> Forall Q l.
Proof. intros P F. rewrite Forall_forall in *. intros x I. apply F, (Permutation_in _ P I). Qed.
Lemma one_connective f : forall g, confused f g -> (no_or f /\ no_or g) \/ (no_and f /\ no_and g) -> reordered f g.
Proof.
  assert (A : forall g, confused f g -> no_or f -> no_or g -> reordered f g).
  { induction f as [l IH|l IH|f IH| | | | | | |] using filter_ind'; intros g C Nf Ng;
      (inversion C as [h|f' g' l' m m' M Mg P F]; subst; [constructor|]); try discriminate M; [|destruct Nf].
    injection M as <-. destruct g; try discriminate Mg; [|destruct Ng]. injection Mg as <-.
    apply re_and with (m' := m'); [exact P|]. cbn [no_or] in Nf, Ng. rewrite no_or_all in Nf, Ng.
    apply (confused_lists no_or l m' IH F Nf). apply (perm_Forall _ _ _ P Ng). }
  assert (B : forall g, confused f g -> no_and f -> no_and g -> reordered f g).
  { clear A. induction f as [l IH|l IH|f IH| | | | | | |] using filter_ind'; intros g C Nf Ng;
      (inversion C as [h|f' g' l' m m' M Mg P F]; subst; [constructor|]); try discriminate M; [destruct Nf|].
    injection M as <-. destruct g; try discriminate Mg; [destruct Ng|]. injection Mg as <-.
    apply re_or with (m' := m'); [exact P|]. cbn [no_and] in Nf, Ng. rewrite no_and_all in Nf, Ng.
    apply (confused_lists no_and l m' IH F Nf). apply (perm_Forall _ _ _ P Ng). }
  intros g C [(X & Y)|(X & Y)]; auto.
Qed.
Section Sat.
  Variable lower : str -> str.
  Variable e : entry.
  Lemma sat_and l : sat lower e (FAnd l) <-> Forall (sat lower e) l.
  Proof. cbn [sat]. induction l as [|g l IH]; [split; auto|]. rewrite IH. split; [intros (A & B); auto|intros F; inversion F; auto]. Qed.
  Lemma sat_or l : sat lower e (FOr l) <-> Exists (sat lower e) l.
  Proof.
    cbn [sat]. induction l as [|g l IH]; [split; [intros []|intros F; inversion F]|]. rewrite IH.
    split; [intros [A|B]; [now left|now right]|intros F; inversion F; auto].
  Qed.
  Lemma sat_reordered f : forall g, reordered f g -> (sat lower e f <-> sat lower e g).
  Proof.
    assert (L : forall l m', Forall (fun f => forall g, reordered f g -> (sat lower e f <-> sat lower e g)) l -> Forall2 reordered l m' ->
      Forall2 (fun x y => sat lower e x <-> sat lower e y) l m').
    { intros l m' IH R. revert IH. induction R; intros IH; inversion IH; subst; constructor; auto. }
    induction f as [l IH|l IH|f IH| | | | | | |] using filter_ind'; intros g R; inversion R as [|l' m m' P F|l' m m' P F]; subst; try reflexivity.
    - rewrite !sat_and. apply (L _ _ IH) in F. transitivity (Forall (sat lower e) m').
      + clear - F. induction F as [|x y l m' I F IH]; [split; auto|]. split; intros G; inversion G; subst; constructor; tauto.
      + split; intros G; [apply (perm_Forall _ _ _ (Permutation_sym P) G)|apply (perm_Forall _ _ _ P G)].
    - rewrite !sat_or. apply (L _ _ IH) in F. transitivity (Exists (sat lower e) m').
      + clear - F. induction F as [|x y l m' I F IH]; [split; intros G; inversion G|]. split; intros G; inversion G; subst; (left; tauto) || (right; tauto).
      + rewrite !Exists_exists. split; intros (x & I & X); exists x; (split; [|exact X]); [apply (Permutation_in _ P I)|apply (Permutation_in _ (Permutation_sym P) I)].
  Qed.
End Sat.
Lemma equal_matches lower kt (ord : Prop) e f g : keys_ok lower kt e -> (ord -> bytes_values e) -> plain ord f -> plain ord g ->
  (no_or f /\ no_or g) \/ (no_and f /\ no_and g) ->
  py_eq (filter_obj f) (filter_obj g) = Ok true -> matches lower e f = matches lower e g.
Proof.
  intros K V Pf Pg N H. apply eq_confused in H. apply (one_connective f g) in H; [|exact N].
  destruct (matches_sat lower kt e f ord K V Pf) as (r & -> & R).
  destruct (matches_sat lower kt e g ord K V Pg) as (r' & -> & R').
  f_equal. rewrite (sat_reordered lower e f g H) in R. destruct r, r'; try reflexivity; [symmetry|]; tauto.
Qed.
