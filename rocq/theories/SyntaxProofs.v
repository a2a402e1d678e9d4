(** Proofs about client-side entries. *)
From Coq Require Import Permutation.
From Verif Require Import Base BaseFacts Utf8Model Utf8Proofs DnModel DnSpec EntryModel EntrySpec EntryProofs SortFacts LdapModel LdapSpec DeltaModel DeltaSpec DeltaProofs
  LdifModel LdifRound PwSpec InmemProofs ServerModel ServerSpec ServerSearch SyntaxModel SyntaxSpec.

(** *** Names *)
Lemma ascii_bytes s : ascii s -> to_bytes (PStr s) = Ok (map z2b s).
Proof. intros H. cbn [to_bytes]. apply utf8_encode_ascii. exact H. Qed.
Lemma lower_ascii s : ascii s -> lower_bytes (map z2b s) = map z2b (ascii_lower s).
Proof.
  intros H. unfold lower_bytes, ascii_lower. induction H as [|c s C H IH]; [reflexivity|]. cbn [map]. rewrite IH. f_equal.
  unfold lower_byte. rewrite b2z_z2b_small by lia. destruct ((65 <=? c) && (c <=? 90)); reflexivity.
Qed.
Lemma ascii_low s : ascii s -> ascii (ascii_lower s).
Proof.
  intros H. unfold ascii, ascii_lower. induction H as [|c s C H IH]; [constructor|]. cbn [map]. constructor; [|exact IH].
  destruct ((65 <=? c) && (c <=? 90)) eqn:E; [|lia]. apply andb_prop in E as (E1 & E2). apply Z.leb_le in E1, E2. lia.
Qed.
Lemma z2b_ascii_inj s t : ascii s -> ascii t -> map z2b s = map z2b t -> s = t.
Proof.
  intros H. revert t. induction H as [|c s C H IH]; intros [|d t] K E; try discriminate; [reflexivity|].
  inversion K as [|? ? K1 K2]; subst. cbn [map] in E. injection E as E1 E2. f_equal; [|auto].
  rewrite <- (b2z_z2b_small c), <- (b2z_z2b_small d) by lia. now rewrite E1.
Qed.

Section Syntax.
  Variable lower : str -> str.
  Variable io : Z -> Z -> res Z.
  Variable oc_first : bool.
  Hypothesis lower_std : forall s, ascii s -> lower s = ascii_lower s.
  Notation lowv := (lowv lower).
  Notation holds := (EntrySpec.holds lower).
  Notation has := (EntrySpec.has lower).
  Notation entry_ok := (EntrySpec.entry_ok lower).
  Notation ent_ok := (ent_ok lower).
  Notation dict_get := (EntryModel.dict_get lower).

  Lemma lower_oc : lower (S_ "objectClass") = S_ "objectclass".
  Proof. rewrite lower_std; [reflexivity|]. vm_compute. repeat (constructor; [split; [discriminate|reflexivity]|]). constructor. Qed.

  Lemma name_low kt k k' b b' : name kt k -> name kt k' -> to_bytes k = Ok b -> to_bytes k' = Ok b' ->
    (lowv k = lowv k' <-> lower_bytes b = lower_bytes b').
  Proof.
    intros (T & N) (T' & N') E E'. destruct k as [s|x], k' as [s'|x']; try (destruct kt; cbn in T, T'; contradiction).
    - specialize (N s eq_refl). specialize (N' s' eq_refl). rewrite (ascii_bytes _ N) in E. rewrite (ascii_bytes _ N') in E'. apply Ok_inj in E, E'. subst b b'.
      rewrite (lower_ascii s N), (lower_ascii s' N'). cbn [EntryModel.lowv]. rewrite (lower_std s N), (lower_std s' N'). split; [intros [= ->]; reflexivity|].
      intros H. f_equal. apply z2b_ascii_inj; [now apply ascii_low|now apply ascii_low|exact H].
    - cbn in E, E'. apply Ok_inj in E, E'. subst. cbn [EntryModel.lowv]. split; [intros [= ->]; reflexivity|intros ->; reflexivity].
  Qed.
  Lemma name_bytes kt k : name kt k -> exists b, to_bytes k = Ok b.
  Proof. intros (T & _). exact (typed_bytes kt k T). Qed.

  Lemma octs_at kt vt e k kb b : ent_ok kt vt e -> name kt k -> to_bytes k = Ok kb ->
    (octs e (lower_bytes kb) b <-> exists v, holds e k v /\ to_bytes v = Ok b).
  Proof.
    intros (O & N) NK KB. rewrite Forall_forall in N. split.
    - intros (a & kb' & I & E & L & v & V & VB). exists v. split; [|exact VB]. exists a. split; [exact I|]. split; [|exact V].
      apply (name_low kt (s_key a) k kb' kb); auto.
    - intros (v & (a & I & L & V) & VB). destruct (name_bytes kt _ (N a I)) as (kb' & E). exists a, kb'. split; [exact I|]. split; [exact E|].
      split; [apply (name_low kt (s_key a) k kb' kb); auto|exists v; auto].
  Qed.
  Lemma octs_any kt vt e lk b : ent_ok kt vt e ->
    (octs e lk b <-> exists k kb v, name kt k /\ to_bytes k = Ok kb /\ lower_bytes kb = lk /\ holds e k v /\ to_bytes v = Ok b).
  Proof.
    intros O. split.
    - intros H. pose proof H as (a & kb & I & E & L & _). subst lk. destruct O as (O & N). assert (NA := proj1 (Forall_forall _ _) N a I).
      destruct (proj1 (octs_at kt vt e (s_key a) kb b (conj O N) NA E) H) as (v & Hv & VB). exists (s_key a), kb, v. auto 10.
    - intros (k & kb & v & NK & KB & <- & Hv & VB). apply (octs_at kt vt e k kb b O NK KB). eauto.
  Qed.
  Lemma octs_ext kt vt e e' : ent_ok kt vt e -> ent_ok kt vt e' -> (forall k v, holds e k v <-> holds e' k v) -> forall k v, octs e k v <-> octs e' k v.
  Proof.
    intros O O' H k v. rewrite (octs_any kt vt e k v O), (octs_any kt vt e' k v O').
    split; intros (k0 & kb & w & N & KB & L & Hw & VB); exists k0, kb, w; rewrite H in *; auto 10.
  Qed.

  (** An entry in which attribute [k] has exactly the values [Q], otherwise as before. *)
  Definition changed (e e' : entry) (k : pyval) (Q : pyval -> Prop) : Prop :=
    forall k' v, holds e' k' v <-> (lowv k' = lowv k /\ Q v) \/ (lowv k' <> lowv k /\ holds e k' v).
  Lemma octs_changed kt vt e e' k kb Q : ent_ok kt vt e -> ent_ok kt vt e' -> name kt k -> to_bytes k = Ok kb -> changed e e' k Q ->
    (forall lk, lk <> lower_bytes kb -> forall b, octs e' lk b <-> octs e lk b) /\
    (forall b, octs e' (lower_bytes kb) b <-> exists v, Q v /\ to_bytes v = Ok b).
  Proof.
    intros O O' NK KB C. split.
    - intros lk NE b. rewrite (octs_any kt vt e lk b O), (octs_any kt vt e' lk b O').
      split; intros (k0 & kb0 & w & N & KB0 & L & Hw & VB); exists k0, kb0, w; (split; [exact N|]; split; [exact KB0|]; split; [exact L|]; split; [|exact VB]).
      + apply C in Hw as [(E & _)|(_ & Hw)]; [|exact Hw]. apply (name_low kt k0 k kb0 kb N NK KB0 KB) in E. congruence.
      + apply C. right. split; [|exact Hw]. intros E. apply (name_low kt k0 k kb0 kb N NK KB0 KB) in E. congruence.
    - intros b. rewrite (octs_at kt vt e' k kb b O' NK KB). split.
      + intros (v & Hv & VB). apply C in Hv as [(_ & Q0)|(X & _)]; [eauto|congruence].
      + intros (v & Q0 & VB). exists v. split; [|exact VB]. apply C. left. auto.
  Qed.

  (** *** One modification *)
  (** The modification that a delta becomes. *)
  Definition to_mod (m : delta) (x : modification) : Prop :=
    exists key vals, to_bytes (d_key m) = Ok key /\ mapR to_bytes (d_vals m) = Ok vals /\ x = mod_of (d_kind m) key vals.
  Lemma to_mod_as_ldap m o : mod_as_ldap m = Ok o <-> exists x, to_mod m x /\ o = mod_obj x.
  Proof.
    split.
    - intros H. destruct (mod_as_ldap_obj m o H) as (key & vals & K & V & ->). eexists. split; [exists key, vals; auto|reflexivity].
    - intros (x & (key & vals & K & V & ->) & ->). unfold mod_as_ldap. rewrite K. cbn [bind]. rewrite V. reflexivity.
  Qed.
  Lemma bytes_all vt vs : Forall (typed vt) vs -> exists bs, mapR to_bytes vs = Ok bs.
  Proof.
    induction 1 as [|v vs T F (bs & IH)]; [exists []; reflexivity|]. destruct (typed_bytes vt v T) as (b & E). exists (b :: bs). cbn [mapR]. now rewrite E, IH.
  Qed.
  Lemma to_mod_ex kt vt m : name kt (d_key m) -> Forall (typed vt) (d_vals m) -> exists x, to_mod m x.
  Proof.
    intros N F. destruct (name_bytes _ _ N) as (k & K). destruct (bytes_all vt _ F) as (vs & V). eexists. exists k, vs. auto.
  Qed.
  Lemma in_bytes vs bs : mapR to_bytes vs = Ok bs -> forall b, In b bs <-> exists v, In v vs /\ to_bytes v = Ok b.
  Proof. intros H b. rewrite <- (denotes_bytes vs bs H b). reflexivity. Qed.
  Lemma in_bytes_typed vt vs bs v b : mapR to_bytes vs = Ok bs -> Forall (typed vt) vs -> typed vt v -> to_bytes v = Ok b -> (In b bs <-> In v vs).
  Proof.
    intros H F T E. rewrite (in_bytes vs bs H b). rewrite Forall_forall in F. split; [|eauto].
    intros (w & I & W). now rewrite (typed_bytes_inj vt v w b T (F w I) E W).
  Qed.
  Lemma holds_typed kt vt e k v : entry_ok kt vt e -> holds e k v -> typed vt v.
  Proof. intros (F & _) (a & I & _ & V). rewrite Forall_forall in F. destruct (F a I) as (_ & F' & _). rewrite Forall_forall in F'. auto. Qed.

  Section Step.
    Variables (strict kt vt : bool) (e e' : entry) (k : pyval).
    Hypotheses (O : ent_ok kt vt e) (O' : ent_ok kt vt e') (NK : name kt k).

    Lemma step_add vs x : Forall (typed vt) vs -> changed e e' k (fun v => holds e k v \/ In v vs) ->
      (strict = true -> vs <> [] /\ forall v, In v vs -> ~ holds e k v) -> to_mod (new_delta MAdd k vs) x -> omod strict x (octs e) (octs e').
    Proof.
      intros F C ST (kb & bs & KB & V & ->). cbn [new_delta d_key d_vals d_kind] in *. unfold omod, mod_of, m_attr, m_op, m_values. cbn zeta.
      destruct (octs_changed kt vt e e' k kb _ O O' NK KB C) as (C1 & C2).
      assert (IB : forall b, In b bs <-> exists v, In v vs /\ to_bytes v = Ok b).
      { intros b. rewrite (in_bytes _ bs V b). split; intros (v & I & E); exists v; rewrite In_set_of in *; auto. }
      split; [exact C1|]. left. split; [reflexivity|]. split.
      - intros S. destruct (ST S) as (NE & NI). split.
        + destruct vs as [|v vs]; [congruence|]. intros ->. destruct (typed_bytes vt v (Forall_inv F)) as (b & E).
          destruct (proj2 (IB b)); [exists v; split; [now left|exact E]|..].
        + intros b I Ob. apply IB in I as (v & I & E). apply (octs_at kt vt e k kb b O NK KB) in Ob as (w & Hw & W).
          assert (w = v) as ->. { apply (typed_bytes_inj vt w v b); auto; [exact (holds_typed kt vt e k w (proj1 O) Hw)|exact (proj1 (Forall_forall _ _) F v I)]. }
          exact (NI v I Hw).
      - intros b. rewrite C2, IB, (octs_at kt vt e k kb b O NK KB). split.
        + intros (v & [H|H] & E); [left|right]; eauto.
        + intros [(v & H & E)|(v & H & E)]; exists v; auto.
    Qed.
    Lemma step_remove v x : typed vt v -> holds e k v -> changed e e' k (fun w => holds e k w /\ w <> v) ->
      to_mod (new_delta MDelete k [v]) x -> omod strict x (octs e) (octs e').
    Proof.
      intros T H C (kb & bs & KB & V & ->). cbn [new_delta d_key d_vals d_kind] in *. unfold omod, mod_of, m_attr, m_op, m_values. cbn zeta.
      destruct (octs_changed kt vt e e' k kb _ O O' NK KB C) as (C1 & C2). destruct (typed_bytes vt v T) as (b & E).
      replace (set_of [v]) with [v] in V by reflexivity. cbn [mapR] in V. rewrite E in V. cbn [bind] in V. apply Ok_inj in V. subst bs.
      split; [exact C1|]. right; right; left. split; [reflexivity|]. split; [discriminate|]. split.
      - intros b' [<-|[]]. apply (octs_at kt vt e k kb b O NK KB). eauto.
      - intros b'. rewrite C2, (octs_at kt vt e k kb b' O NK KB). split.
        + intros (w & (Hw & Ne) & W). split; [eauto|]. intros [<-|[]]. apply Ne. apply (typed_bytes_inj vt w v b); auto. exact (holds_typed kt vt e k w (proj1 O) Hw).
        + intros ((w & Hw & W) & NI). exists w. split; [|exact W]. split; [exact Hw|]. intros ->. apply NI. left. congruence.
    Qed.
    Lemma step_delete x : (exists v, holds e k v) -> changed e e' k (fun _ => False) -> to_mod (new_delta MDelete k []) x -> omod strict x (octs e) (octs e').
    Proof.
      intros (v & H) C (kb & bs & KB & V & ->). cbn [new_delta d_key d_vals d_kind] in *. unfold omod, mod_of, m_attr, m_op, m_values. cbn zeta.
      destruct (octs_changed kt vt e e' k kb _ O O' NK KB C) as (C1 & C2). cbn in V. apply Ok_inj in V. subst bs.
      split; [exact C1|]. right; left. split; [reflexivity|]. split; [reflexivity|]. split.
      - destruct (typed_bytes vt v (holds_typed kt vt e k v (proj1 O) H)) as (b & E). exists b. apply (octs_at kt vt e k kb b O NK KB). eauto.
      - intros b. rewrite C2. intros (w & [] & _).
    Qed.
    Lemma step_replace vs x : Forall (typed vt) vs -> changed e e' k (fun v => In v vs) -> to_mod (new_delta MReplace k vs) x -> omod strict x (octs e) (octs e').
    Proof.
      intros F C (kb & bs & KB & V & ->). cbn [new_delta d_key d_vals d_kind] in *. unfold omod, mod_of, m_attr, m_op, m_values. cbn zeta.
      destruct (octs_changed kt vt e e' k kb _ O O' NK KB C) as (C1 & C2).
      split; [exact C1|]. right; right; right. split; [reflexivity|]. intros b. rewrite C2, (in_bytes _ bs V b).
      split; intros (v & I & E); exists v; rewrite In_set_of in *; auto.
    Qed.
  End Step.

  (** *** The entry after an edit *)
  Lemma other_name kt vt k e : convertible k -> entry_ok kt vt e ->
    exists k0, typed kt k0 /\ find_key lower k e = Ok (dict_get k0 (e_attrs e)).
  Proof.
    intros C O. assert (N : forall w, isstr w = negb kt -> dict_get w (e_attrs e) = None).
    { intros w W. destruct (dict_get w (e_attrs e)) as [a|] eqn:G; [|reflexivity]. destruct (entry_ok_get lower kt vt e w a O G) as (T & _).
      apply dict_get_some in G as (_ & L). apply (f_equal isstr) in L. rewrite !isstr_lowv in L. rewrite (typed_isstr kt _ T), W in L. destruct kt; discriminate. }
    unfold find_key. destruct k as [s|b]; cbn [convertible] in C; destruct C as (x & X); cbn [get_strings]; rewrite X; cbn [bind fold_right]; destruct kt.
    - exists (PStr s). split; [exists x; exact X|]. rewrite (N (PBytes x)) by reflexivity. now destruct (dict_get (PStr s) (e_attrs e)).
    - exists (PBytes x). split; [exists s; apply utf8_iff; exact X|]. rewrite (N (PStr s)) by reflexivity. now destruct (dict_get (PBytes x) (e_attrs e)).
    - exists (PStr x). split; [exists b; apply utf8_iff; exact X|]. rewrite (N (PBytes b)) by reflexivity. now destruct (dict_get (PStr x) (e_attrs e)).
    - exists (PBytes b). split; [exists x; exact X|]. rewrite (N (PStr x)) by reflexivity. now destruct (dict_get (PBytes b) (e_attrs e)).
  Qed.

  Lemma set_vals_ent kt vt e a vs k : ent_ok kt vt e -> dict_get k (e_attrs e) = Some a -> Forall (typed vt) vs -> NoDup vs ->
    ent_ok kt vt (set_vals lower a vs e) /\ changed e (set_vals lower a vs e) k (fun v => In v vs).
  Proof.
    intros (O & N) G F D. destruct (set_vals_ok lower kt vt e a vs k O G F D) as (O1 & _ & H). split; [split; [exact O1|]|exact H].
    apply Forall_forall. intros b I. unfold set_vals in I. cbn [e_attrs] in I. apply (In_dict_upd lower) in I; [|exact (proj2 O)].
    rewrite Forall_forall in N. destruct I as [(a0 & I & _ & ->)|(I & _)]; auto. cbn [s_key]. auto.
  Qed.
  Lemma setitem_ent kt vt e k vs : ent_ok kt vt e -> name kt k -> Forall (typed vt) vs ->
    ent_ok kt vt (setitem lower k vs e) /\ changed e (setitem lower k vs e) k (fun v => In v vs).
  Proof.
    intros (O & N) NK F. destruct (setitem_ok lower kt vt e k vs O (proj1 NK) F) as (O1 & _ & H). split; [split; [exact O1|]|exact H].
    apply Forall_forall. intros b I. unfold setitem in I. cbn [e_attrs] in I. apply (In_dict_set lower) in I; [|exact (proj2 O)].
    rewrite Forall_forall in N. destruct I as [->|(I & _)]; auto.
  Qed.
  Lemma dict_del_ent kt vt e k : ent_ok kt vt e -> let e' := mkEntry (e_dn e) (dict_del lower k (e_attrs e)) in
    ent_ok kt vt e' /\ changed e e' k (fun _ => False).
  Proof.
    intros (O & N) e'. destruct (dict_del_ok lower kt vt e k O) as (O1 & _ & H). split; [split; [exact O1|]|].
    - apply Forall_forall. intros b I. cbn [e_attrs] in I. apply In_dict_del in I as (I & _). rewrite Forall_forall in N. auto.
    - intros k' v. unfold e'. etransitivity; [exact (H k' v)|]. tauto.
  Qed.

  (** One edit: nothing is journaled and nothing changes, or one modification is journaled and its
      effect is that of the edit. *)
  Lemma changed_same e e' k vs : changed e e' k (fun v => In v vs) -> (forall k', lowv k' = lowv k -> forall v, holds e k' v <-> In v vs) ->
    forall k' v, holds e k' v <-> holds e' k' v.
  Proof.
    intros C H k' v. rewrite (C k' v). destruct (pyval_eqb_spec (lowv k') (lowv k)) as [E|E]; [rewrite (H k' E v)|]; tauto.
  Qed.
  Lemma edit_step strict kt vt x c c' r : ent_ok kt vt (y_entry c) -> fits lower strict kt vt x c -> c_edit lower x c = (c', r) ->
    ent_ok kt vt (y_entry c') /\ y_dn c' = y_dn c /\ y_remote c' = y_remote c /\ y_deleted c' = y_deleted c /\
    ((y_journal c' = y_journal c /\ forall k v, octs (y_entry c') k v <-> octs (y_entry c) k v) \/
     (r = Ok tt /\ exists m x, y_journal c' = y_journal c ++ [m] /\ to_mod m x /\ name kt (d_key m) /\ Forall (typed vt) (d_vals m) /\ omod strict x (octs (y_entry c)) (octs (y_entry c')))).
  Proof.
    intros O F H.
    assert (SAME : (c', r) = (c, r) -> ent_ok kt vt (y_entry c') /\ y_dn c' = y_dn c /\ y_remote c' = y_remote c /\ y_deleted c' = y_deleted c /\
      ((y_journal c' = y_journal c /\ forall k v, octs (y_entry c') k v <-> octs (y_entry c) k v) \/
       (r = Ok tt /\ exists m x, y_journal c' = y_journal c ++ [m] /\ to_mod m x /\ name kt (d_key m) /\ Forall (typed vt) (d_vals m) /\ omod strict x (octs (y_entry c)) (octs (y_entry c'))))).
    { intros [= ->]. split; [exact O|]. split; [reflexivity|]. split; [reflexivity|]. split; [reflexivity|]. left. split; [reflexivity|tauto]. }
    destruct x as [k m|k s|k]; cbn [c_edit fits] in *.
    - unfold on_set in H. unfold check in H. destruct (y_deleted c) eqn:D; [apply SAME; cbn [bind] in H; injection H as <- <-; reflexivity|]. cbn [bind] in H.
      destruct F as (CK & F). destruct (other_name kt vt k (y_entry c) CK (proj1 O)) as (k0 & T0 & FK).
      unfold getitem in *. rewrite FK in *. cbn [bind] in *. destruct (dict_get k0 (e_attrs (y_entry c))) as [a|] eqn:G;
        [|apply SAME; injection H as <- <-; reflexivity].
      specialize (F a eq_refl). destruct (entry_ok_get lower kt vt _ _ _ (proj1 O) G) as (TA & VA & DA).
      pose proof G as GA. apply dict_get_some in GA as (IA & LA). assert (NA : name kt (s_key a)) by (exact (proj1 (Forall_forall _ _) (proj2 O) a IA)).
      assert (G' : dict_get (s_key a) (e_attrs (y_entry c)) = Some a) by (rewrite (dict_get_ext lower (s_key a) k0) by exact LA; exact G).
      assert (HG : forall k', lowv k' = lowv (s_key a) -> forall v, holds (y_entry c) k' v <-> In v (s_vals a)).
      { intros k' L v. apply (holds_get lower kt vt); [exact (proj1 O)|]. rewrite (dict_get_ext lower k' (s_key a)) by exact L. exact G'. }
      assert (KEEP : ent_ok kt vt (set_vals lower a (s_vals a) (y_entry c)) /\
         forall k v, octs (set_vals lower a (s_vals a) (y_entry c)) k v <-> octs (y_entry c) k v).
      { destruct (set_vals_ent kt vt (y_entry c) a (s_vals a) (s_key a) O G' VA DA) as (O1 & C1). split; [exact O1|].
        intros k1 v1. symmetry. apply (octs_ext kt vt); [exact O|exact O1|]. exact (changed_same _ _ _ _ C1 HG). }
      assert (SAME2 : forall r0, (with_entry (set_vals lower a (s_vals a) (y_entry c)) c, r0) = (c', r) ->
        ent_ok kt vt (y_entry c') /\ y_dn c' = y_dn c /\ y_remote c' = y_remote c /\ y_deleted c' = false /\
        ((y_journal c' = y_journal c /\ forall k v, octs (y_entry c') k v <-> octs (y_entry c) k v) \/
         (r = Ok tt /\ exists m x, y_journal c' = y_journal c ++ [m] /\ to_mod m x /\ name kt (d_key m) /\ Forall (typed vt) (d_vals m) /\ omod strict x (octs (y_entry c)) (octs (y_entry c'))))).
      { intros r0 [= <- <-]. cbn [y_entry y_dn with_entry y_remote y_deleted y_journal]. split; [exact (proj1 KEEP)|]. split; [reflexivity|]. split; [reflexivity|]. split; [exact D|].
        left. split; [reflexivity|exact (proj2 KEEP)]. }
      destruct m as [v|s|v| |v]; cbn [set_method] in H.
      + destruct F as (TV & ST). rewrite (aset_add_typed vt v (s_vals a) TV VA) in H. injection H as <- <-.
        cbn [y_entry y_dn with_entry y_remote y_deleted y_journal journal].
        destruct (set_vals_ent kt vt (y_entry c) a (set_add v (s_vals a)) (s_key a) O G') as (O1 & C1).
        { apply Forall_forall. intros w I. apply In_set_add in I as [->|I]; [exact TV|exact (proj1 (Forall_forall _ _) VA w I)]. }
        { now apply NoDup_set_add. }
        split; [exact O1|]. split; [reflexivity|]. split; [reflexivity|]. split; [exact D|]. right. split; [reflexivity|].
        assert (FD : Forall (typed vt) (d_vals (new_delta MAdd (s_key a) [v]))); [apply Forall_forall; intros w [<-|[]]; exact TV|]. destruct (to_mod_ex kt vt (new_delta MAdd (s_key a) [v]) NA FD) as (x & X).
        exists (new_delta MAdd (s_key a) [v]), x. split; [reflexivity|]. split; [exact X|]. split; [exact NA|]. split; [exact FD|].
        apply (step_add strict kt vt _ _ (s_key a) O O1 NA [v] x); [constructor; [exact TV|constructor]| | |exact X].
        * intros k' w. rewrite (C1 k' w), In_set_add. rewrite (HG (s_key a) eq_refl). cbn [In]. intuition congruence.
        * intros S0. split; [discriminate|]. intros w [<-|[]]. rewrite (HG (s_key a) eq_refl). exact (ST S0).
      + destruct F as (vs & -> & TV & ST). cbn [read1 read2] in H. injection H as <- <-.
        cbn [y_entry y_dn with_entry y_remote y_deleted y_journal journal].
        destruct (set_vals_ent kt vt (y_entry c) a (set_update (s_vals a) vs) (s_key a) O G') as (O1 & C1).
        { apply Forall_forall. intros w I. rewrite Forall_forall in VA, TV. apply In_set_update in I as [I|I]; auto. }
        { now apply NoDup_set_update. }
        split; [exact O1|]. split; [reflexivity|]. split; [reflexivity|]. split; [exact D|]. right. split; [reflexivity|].
        assert (FD : Forall (typed vt) (d_vals (new_delta MAdd (s_key a) vs))).
        { apply Forall_forall. intros w I. cbn [new_delta d_vals] in I. apply (proj1 (In_set_of _ _)) in I. rewrite Forall_forall in TV; auto. }
        destruct (to_mod_ex kt vt (new_delta MAdd (s_key a) vs) NA FD) as (x & X).
        exists (new_delta MAdd (s_key a) vs), x. split; [reflexivity|]. split; [exact X|]. split; [exact NA|]. split; [exact FD|].
        apply (step_add strict kt vt _ _ (s_key a) O O1 NA vs x); [exact TV| | |exact X].
        * intros k' w. rewrite (C1 k' w), In_set_update. rewrite (HG (s_key a) eq_refl). tauto.
        * intros S0. destruct (ST S0) as (NE & NI). split; [exact NE|]. intros w I. rewrite (HG (s_key a) eq_refl). exact (NI w I).
      + destruct (mem v (s_vals a)) eqn:M; cbn [negb] in H; [|exact (SAME2 _ H)]. apply mem_In in M.
        destruct (can_remove (s_key a) v c) as [u|x0]; [|exact (SAME2 _ H)].
        assert (TV : typed vt v) by (rewrite Forall_forall in VA; auto).
        rewrite (aset_remove_typed vt v (s_vals a) TV VA) in H. replace (mem v (s_vals a)) with true in H by (symmetry; now apply mem_In). injection H as <- <-.
        cbn [y_entry y_dn with_entry y_remote y_deleted y_journal journal].
        destruct (set_vals_ent kt vt (y_entry c) a (set_del v (s_vals a)) (s_key a) O G') as (O1 & C1).
        { apply Forall_forall. intros w I. apply In_set_del in I as (I & _). rewrite Forall_forall in VA; auto. }
        { apply NoDup_filter. exact DA. }
        split; [exact O1|]. split; [reflexivity|]. split; [reflexivity|]. split; [exact D|]. right. split; [reflexivity|].
        assert (FD : Forall (typed vt) (d_vals (new_delta MDelete (s_key a) [v]))); [apply Forall_forall; intros w [<-|[]]; exact TV|]. destruct (to_mod_ex kt vt (new_delta MDelete (s_key a) [v]) NA FD) as (x & X).
        exists (new_delta MDelete (s_key a) [v]), x. split; [reflexivity|]. split; [exact X|]. split; [exact NA|]. split; [exact FD|].
        apply (step_remove strict kt vt _ _ (s_key a) O O1 NA v x TV); [now rewrite (HG (s_key a) eq_refl)| |exact X].
        intros k' w. rewrite (C1 k' w), In_set_del. rewrite (HG (s_key a) eq_refl). tauto.
      + destruct (can_remove_all (s_key a) c) as [u|x0]; [|exact (SAME2 _ H)]. injection H as <- <-.
        cbn [y_entry y_dn with_entry y_remote y_deleted y_journal journal].
        destruct (set_vals_ent kt vt (y_entry c) a [] (s_key a) O G') as (O1 & C1); [constructor|constructor|].
        split; [exact O1|]. split; [reflexivity|]. split; [reflexivity|]. split; [exact D|]. right. split; [reflexivity|].
        assert (FD : Forall (typed vt) (d_vals (new_delta MDelete (s_key a) []))); [constructor|]. destruct (to_mod_ex kt vt (new_delta MDelete (s_key a) []) NA FD) as (x & X).
        exists (new_delta MDelete (s_key a) []), x. split; [reflexivity|]. split; [exact X|]. split; [exact NA|]. split; [exact FD|].
        apply (step_delete strict kt vt _ _ (s_key a) O O1 NA x); [| |exact X].
        * destruct (s_vals a) as [|v0 r0] eqn:V; [congruence|]. exists v0. rewrite (HG (s_key a) eq_refl). now left.
        * intros k' w. rewrite (C1 k' w). cbn [In]. tauto.
      + contradiction.
    - unfold c_setitem in H. destruct (do _ <- check c; can_remove_all k c) as [u|x0]; [|apply SAME; injection H as <- <-; reflexivity].
      injection H as <- <-. destruct F as (NK & vs & -> & TV). cbn [read1 read2 y_entry y_dn with_entry y_remote y_deleted y_journal journal].
      destruct (setitem_ent kt vt (y_entry c) k vs O NK TV) as (O1 & C1).
      split; [exact O1|]. split; [reflexivity|]. split; [reflexivity|]. split; [reflexivity|]. right. split; [reflexivity|].
      assert (FD : Forall (typed vt) (d_vals (new_delta MReplace k vs))).
      { apply Forall_forall. intros w I. cbn [new_delta d_vals] in I. apply (proj1 (In_set_of _ _)) in I. rewrite Forall_forall in TV; auto. }
        destruct (to_mod_ex kt vt (new_delta MReplace k vs) NK FD) as (x & X).
      exists (new_delta MReplace k vs), x. split; [reflexivity|]. split; [exact X|]. split; [exact NK|]. split; [exact FD|].
      exact (step_replace strict kt vt _ _ k O O1 NK vs x TV C1 X).
    - unfold c_delitem in H. destruct F as (NK & F). destruct (check c) as [u|x0]; cbn [bind] in H; [|apply SAME; injection H as <- <-; reflexivity].
      destruct (can_remove_all k c) as [u1|x0]; cbn [bind] in H; [|apply SAME; injection H as <- <-; reflexivity].
      unfold delitem in H. destruct (dict_get k (e_attrs (y_entry c))) as [a|] eqn:G; [|apply SAME; injection H as <- <-; reflexivity].
      injection H as <- <-. cbn [y_entry y_dn with_entry y_remote y_deleted y_journal journal].
      destruct (dict_del_ent kt vt (y_entry c) k O) as (O1 & C1).
      split; [exact O1|]. split; [reflexivity|]. split; [reflexivity|]. split; [reflexivity|]. right. split; [reflexivity|].
      assert (FD : Forall (typed vt) (d_vals (new_delta MDelete k []))); [constructor|]. destruct (to_mod_ex kt vt (new_delta MDelete k []) NK FD) as (x & X).
      exists (new_delta MDelete k []), x. split; [reflexivity|]. split; [exact X|]. split; [exact NK|]. split; [exact FD|].
      apply (step_delete strict kt vt _ _ k O O1 NK x); [|exact C1|exact X].
      rewrite (getitem_typed lower kt vt k (y_entry c) (proj1 NK) (proj1 O)), G in F. specialize (F a eq_refl).
      destruct (s_vals a) as [|v0 r0] eqn:V; [congruence|]. exists v0. rewrite (holds_get lower kt vt (y_entry c) k v0 a (proj1 O) G), V. now left.
  Qed.

  (** *** items, undo, commit *)
  Lemma typed_encodable vt vs : Forall (typed vt) vs -> forall v, In v vs -> exists b, to_bytes v = Ok b.
  Proof. intros F v I. rewrite Forall_forall in F. exact (typed_bytes vt v (F v I)). Qed.
  Lemma typed_sorts vt vs : Forall (typed vt) vs -> exists l, sort_values vs = Ok l.
  Proof.
    intros F. unfold sort_values. replace (all_str vs || all_bytes vs) with true; [eauto|]. symmetry. apply orb_true_iff. rewrite Forall_forall in F.
    destruct vt; [left|right]; apply forallb_forall; intros v I; specialize (F v I); destruct v; cbn in F; tauto.
  Qed.
  Lemma items_total kt vt e : entry_ok kt vt e -> exists l, items lower oc_first e = Ok l.
  Proof.
    intros (F & _). rewrite Forall_forall in F. unfold items, oc_part, other_part.
    destruct (mapR_ex (fun k => match dict_get k (e_attrs e) with
         | Some a => match s_vals a with [] => Ok [] | _ => do vs <- sort_to_bytes (s_vals a); Ok [(k, vs)] end | None => Ok [] end) (oc_keys oc_first)) as (l1 & E1).
    { intros k _. destruct (dict_get k (e_attrs e)) as [a|] eqn:G; [|eauto]. apply dict_get_some in G as (Ia & _). destruct (F a Ia) as (_ & VE & _).
      destruct (sort_to_bytes_ok (s_vals a) (typed_encodable vt _ VE)) as (vs & SV & _). destruct (s_vals a); [eauto|]. rewrite SV. cbn [bind]. eauto. }
    rewrite E1. cbn [bind].
    destruct (mapR_ex (fun a => do b <- to_bytes (s_key a); Ok (b, (s_key a, s_vals a))) (e_attrs e)) as (kb & E2).
    { intros a Ia. destruct (F a Ia) as (T & _). destruct (typed_bytes kt _ T) as (b & ->). cbn [bind]. eauto. }
    rewrite E2. cbn [bind]. apply mapR_F2 in E2.
    match goal with |- context [mapR ?g ?x] => destruct (mapR_ex g x) as (l2 & E3) end.
    { intros (k & vs) I0. apply filter_In in I0 as (I0 & _). apply in_map_iff in I0 as ((bb & kv) & Ekv & I0). cbn [snd] in Ekv. subst kv.
      apply (Permutation_in _ (Permutation_sym (sort_perm _ _))) in I0. destruct (Forall2_In_r _ _ _ _ E2 I0) as (a & Ia & E).
      apply bind_ok in E as (b0 & _ & E). apply Ok_inj in E. injection E as _ <- <-. cbn [snd fst]. destruct (F a Ia) as (_ & VE & _).
      destruct (typed_sorts vt _ VE) as (l & ->). cbn [bind]. eauto. }
    rewrite E3. cbn [bind]. eauto.
  Qed.
  (** What items() lists: attributes of the entry, under names of its type. *)
  Lemma items_pairs kt vt e l : ent_ok kt vt e -> items lower oc_first e = Ok l -> forall k vs, In (k, vs) l ->
    name kt k /\ Forall (typed vt) vs /\ forall v, In v vs <-> holds e k v.
  Proof.
    intros ((F & ND) & N) H k vs I. destruct (items_sound lower oc_first e l H k vs I) as (a & Ia & L & P).
    destruct (items_sound_key lower oc_first e l H k vs I) as (a' & Ia' & K & _).
    rewrite Forall_forall in F, N. destruct (F a Ia) as (T & VE & _). split; [|split].
    - destruct K as [->|K]; [auto|]. assert (IS : isstr k = kt). { apply (f_equal isstr) in L. rewrite !isstr_lowv in L. rewrite L. exact (typed_isstr kt _ T). }
      assert (KO : k = PStr (S_ "objectClass") \/ k = PBytes (B "objectClass")) by (unfold oc_keys in K; destruct oc_first; cbn [In] in K; intuition).
      destruct KO as [-> | ->]; cbn [isstr] in IS; subst kt.
      + split; [eexists; vm_compute; reflexivity|]. intros s [= <-]. vm_compute. repeat (constructor; [split; [discriminate|reflexivity]|]). constructor.
      + split; [eexists; vm_compute; reflexivity|]. discriminate.
    - rewrite Forall_forall in *. intros v J. apply VE. exact (Permutation_in _ (Permutation_sym P) J).
    - intros v. split.
      + intros J. exists a. split; [exact Ia|]. split; [congruence|]. exact (Permutation_in _ (Permutation_sym P) J).
      + intros (b & J & Lb & V). assert (b = a) as -> by (apply (lowkeys_inj lower (e_attrs e)); auto; congruence). exact (Permutation_in _ P V).
  Qed.
  Lemma items_all kt vt e l : ent_ok kt vt e -> items lower oc_first e = Ok l -> forall k v, holds e k v <-> exists k' vs, In (k', vs) l /\ lowv k' = lowv k /\ In v vs.
  Proof.
    intros O H k v. split.
    - intros (a & Ia & L & V). destruct (items_complete lower oc_first lower_oc e l (proj2 (proj1 O)) H a Ia) as (k' & vs & I & L' & P); [intros E; rewrite E in V; exact V|].
      exists k', vs. split; [exact I|]. split; [congruence|]. exact (Permutation_in _ P V).
    - intros (k' & vs & I & L & V). destruct (items_pairs kt vt e l O H k' vs I) as (_ & _ & HV). apply HV in V as (a & Ia & La & V). exists a. split; [exact Ia|]. split; [congruence|exact V].
  Qed.
  Lemma init_loop_ok its : forall l, NoDup (lowkeys lower l) -> NoDup (lowkeys lower (init_loop lower its l)) /\
    forall a, In a (init_loop lower its l) -> (exists a0, In a0 l /\ s_key a0 = s_key a /\ forall v, In v (s_vals a) -> In v (s_vals a0) \/ exists k' vs, In (k', vs) its /\ In v vs) \/
      (exists vs, In (s_key a, vs) its /\ forall v, In v (s_vals a) -> exists k' vs, In (k', vs) its /\ In v vs).
  Proof.
    induction its as [|(k & vs) its IH]; intros l N; cbn [init_loop].
    - split; [exact N|]. intros a I. left. exists a. auto.
    - set (l1 := match dict_get k l with Some _ => l | None => l ++ [mkSet k []] end).
      assert (N1 : NoDup (lowkeys lower l1)).
      { unfold l1. destruct (dict_get k l) eqn:G; [exact N|]. unfold lowkeys. rewrite map_app. cbn [map]. apply NoDup_snoc; [exact N|].
        intros I. apply in_map_iff in I as (a & E & I). exact (dict_get_none lower k l G a I E). }
      assert (N2 : NoDup (lowkeys lower (dict_upd lower k (fun old => old ++ vs) l1))) by (rewrite lowkeys_upd; exact N1).
      destruct (IH _ N2) as (ND & IHH). split; [exact ND|]. intros a I. destruct (IHH a I) as [(a0 & I0 & K & V)|(vs' & I0 & V)].
      + assert (C : (exists a1, In a1 l /\ s_key a1 = s_key a0 /\ forall v, In v (s_vals a0) -> In v (s_vals a1) \/ In v vs) \/ (s_key a0 = k /\ forall v, In v (s_vals a0) -> In v vs)).
        { apply (In_dict_upd lower) in I0; [|exact N1]. destruct I0 as [(a1 & I1 & _ & ->)|(I1 & _)]; unfold l1 in I1; cbn [s_key s_vals].
          - destruct (dict_get k l); [left; exists a1; split; [exact I1|]; split; [reflexivity|]; intros v; rewrite in_app_iff; tauto|].
            apply in_app_iff in I1 as [I1|[<-|[]]]; [left; exists a1; split; [exact I1|]; split; [reflexivity|]; intros v; rewrite in_app_iff; tauto|].
            right. cbn [s_key s_vals app]. auto.
          - destruct (dict_get k l); [left; exists a0; auto|]. apply in_app_iff in I1 as [I1|[<-|[]]]; [left; exists a0; auto|]. right. cbn. split; [reflexivity|tauto]. }
        destruct C as [(a1 & I1 & K1 & V1)|(K1 & V1)].
        * left. exists a1. split; [exact I1|]. split; [congruence|]. intros v J. destruct (V v J) as [J1|(k' & vs' & J1 & J2)].
          -- destruct (V1 v J1) as [J2|J2]; [now left|right; exists k, vs; split; [now left|exact J2]].
          -- right. exists k', vs'. split; [now right|exact J2].
        * right. exists vs. split; [left; congruence|]. intros v J. destruct (V v J) as [J1|(k' & vs' & J1 & J2)].
          -- exists k, vs. split; [now left|auto].
          -- exists k', vs'. split; [now right|exact J2].
      + right. exists vs'. split; [now right|]. intros v J. destruct (V v J) as (k' & vs2 & J1 & J2). exists k', vs2. split; [now right|exact J2].
  Qed.
  Lemma new_entry_ent kt vt d its : (forall k vs, In (k, vs) its -> name kt k /\ Forall (typed vt) vs) -> ent_ok kt vt (new_entry lower d its).
  Proof.
    intros H. destruct (init_loop_ok its [] (NoDup_nil _)) as (ND & A). unfold new_entry.
    assert (B0 : forall a, In a (init_loop lower its []) -> name kt (s_key a) /\ Forall (typed vt) (s_vals a)).
    { intros a I. destruct (A a I) as [(a0 & [] & _)|(vs & I1 & V)]. split; [exact (proj1 (H _ _ I1))|]. apply Forall_forall. intros v J.
      destruct (V v J) as (k' & vs' & J1 & J2). exact (proj1 (Forall_forall _ _) (proj2 (H _ _ J1)) v J2). }
    split; [split|]; cbn [e_attrs].
    - apply Forall_forall. intros b I. apply in_map_iff in I as (a & <- & I). cbn [s_key s_vals]. destruct (B0 a I) as (N & F). split; [exact (proj1 N)|]. split; [|apply NoDup_set_of].
      apply Forall_forall. intros v J. apply (proj1 (In_set_of _ _)) in J. exact (proj1 (Forall_forall _ _) F v J).
    - rewrite map_map. exact ND.
    - apply Forall_forall. intros b I. apply in_map_iff in I as (a & <- & I). exact (proj1 (B0 a I)).
  Qed.
  Lemma copy_entry kt vt e l d : ent_ok kt vt e -> items lower oc_first e = Ok l ->
    ent_ok kt vt (new_entry lower d l) /\ forall k v, octs (new_entry lower d l) k v <-> octs e k v.
  Proof.
    intros O H. assert (O' : ent_ok kt vt (new_entry lower d l)).
    { apply new_entry_ent. intros k vs I. destruct (items_pairs kt vt e l O H k vs I) as (N & F & _). auto. }
    split; [exact O'|]. apply (octs_ext kt vt); [exact O'|exact O|]. intros k v. rewrite (proj2 (new_entry_spec lower d l k v)). symmetry. exact (items_all kt vt e l O H k v).
  Qed.
  Lemma rebuild_ok kt vt e0 l : forall attrs d, ent_ok kt vt (mkEntry d attrs) ->
    (forall k vs, In (k, vs) l -> name kt k /\ Forall (typed vt) vs /\ forall v, In v vs <-> holds e0 k v) ->
    ent_ok kt vt (mkEntry d (rebuild lower l attrs)) /\
    forall k v, holds (mkEntry d (rebuild lower l attrs)) k v <->
      (exists k' vs, In (k', vs) l /\ lowv k' = lowv k /\ In v vs) \/ ((forall k' vs, In (k', vs) l -> lowv k' <> lowv k) /\ holds (mkEntry d attrs) k v).
  Proof.
    induction l as [|(k0 & vs0) l IH]; intros attrs d O H; unfold rebuild; cbn [fold_left fst snd].
    - split; [exact O|]. intros k v. split; [intros X; right; split; [intros k' vs []|exact X]|]. intros [(k' & vs & [] & _)|(_ & X)]; exact X.
    - destruct (H k0 vs0 (or_introl eq_refl)) as (N0 & F0 & V0).
      destruct (setitem_ent kt vt (mkEntry d attrs) k0 vs0 O N0 F0) as (O1 & C1). unfold setitem in O1, C1. cbn [e_dn e_attrs] in O1, C1.
      destruct (IH _ _ O1) as (O2 & H2); [intros k vs I; apply H; now right|]. split; [exact O2|]. intros k v. unfold rebuild in H2. rewrite H2. rewrite (C1 k v). split.
      + intros [(k' & vs & I & L & V)|(NI & [(L & V)|(NE & X)])].
        * left. exists k', vs. split; [now right|auto].
        * left. exists k0, vs0. split; [now left|auto].
        * right. split; [|exact X]. intros k' vs [[= <- <-]|I]; [congruence|exact (NI k' vs I)].
      + intros [(k' & vs & [[= <- <-]|I] & L & V)|(NI & X)].
        * destruct (in_dec (fun a b => Bool.reflect_dec _ _ (pyval_eqb_spec a b)) (lowv k) (map (fun kv => lowv (fst kv)) l)) as [I|NI].
          -- apply in_map_iff in I as ((k1 & vs1) & L1 & I1). cbn [fst] in L1. left. exists k1, vs1. split; [exact I1|]. split; [exact L1|].
             destruct (H k1 vs1 (or_intror I1)) as (_ & _ & V1). apply V1. apply V0 in V as (a & Ia & La & V). exists a. split; [exact Ia|]. split; [congruence|exact V].
          -- right. split; [|left; auto]. intros k' vs I E. apply NI. apply in_map_iff. exists (k', vs). auto.
        * left. exists k', vs. auto.
        * right. split; [intros k' vs I; apply (NI k' vs); now right|]. right. split; [|exact X]. intros E. apply (NI k0 vs0 (or_introl eq_refl)). congruence.
  Qed.
  Lemma undo_step kt vt c : ent_ok kt vt (y_remote c) -> y_deleted c = false ->
    exists c', c_undo lower oc_first c = (c', Ok tt) /\ ent_ok kt vt (y_entry c') /\ y_dn c' = y_dn c /\ y_remote c' = y_remote c /\ y_deleted c' = false /\ y_journal c' = [] /\
      forall k v, octs (y_entry c') k v <-> octs (y_remote c) k v.
  Proof.
    intros O D. destruct (items_total kt vt (y_remote c) (proj1 O)) as (l & L). unfold c_undo, check. rewrite D, L. eexists. split; [reflexivity|].
    cbn [y_entry y_dn y_remote y_deleted y_journal e_dn].
    assert (O0 : ent_ok kt vt (mkEntry (y_dn c) [])) by (split; [split; constructor|constructor]).
    destruct (rebuild_ok kt vt (y_remote c) l [] (y_dn c) O0 (items_pairs kt vt (y_remote c) l O L)) as (O1 & H).
    split; [exact O1|]. split; [reflexivity|]. split; [reflexivity|]. split; [reflexivity|]. split; [reflexivity|].
    apply (octs_ext kt vt); [exact O1|exact O|]. intros k v. rewrite H, (items_all kt vt (y_remote c) l O L k v). split; [|auto].
    intros [X|(_ & (a & [] & _))]. exact X.
  Qed.
  Lemma success_step kt vt c msg : ent_ok kt vt (y_entry c) -> y_deleted c = false -> good_result KModResp msg = Ok tt ->
    exists c', commit_success lower oc_first msg c = (c', Ok tt) /\ y_entry c' = y_entry c /\ ent_ok kt vt (y_remote c') /\ y_deleted c' = false /\ y_journal c' = [] /\
      forall k v, octs (y_remote c') k v <-> octs (y_entry c) k v.
  Proof.
    intros O D G. destruct (items_total kt vt (y_entry c) (proj1 O)) as (l & L). unfold commit_success, check. rewrite G, D. cbn [bind]. rewrite L. eexists. split; [reflexivity|].
    cbn [y_entry y_remote y_deleted y_journal]. destruct (copy_entry kt vt (y_entry c) l (y_dn c) O L) as (O1 & H). auto 10.
  Qed.
  Lemma refused_step c x : r_code x <> 0 -> exists y, commit_success lower oc_first (response_obj (ModifyResponse x)) c = (c, Err y).
  Proof.
    intros N. unfold commit_success. cbn [response_obj result_obj good_result]. destruct (cls_dec KModResp KModResp) as [_|N0]; [|contradiction].
    destruct x as [z d m]. cbn [r_code] in N. cbn [r_code code_check]. destruct z; [contradiction|eexists; reflexivity|eexists; reflexivity].
  Qed.

  (** *** Modifications on octets *)
  Lemma omod_ext strict m O1 O2 P1 P2 : (forall k v, O1 k v <-> O2 k v) -> (forall k v, P1 k v <-> P2 k v) -> omod strict m O1 P1 -> omod strict m O2 P2.
  Proof.
    intros E F (H1 & H2). unfold omod. cbn zeta in *. split; [intros k' N v; rewrite <- F, <- E; auto|].
    destruct H2 as [(A & B0 & C)|[(A & B0 & (v & V) & C)|[(A & B0 & C & D)|(A & C)]]].
    - left. split; [exact A|]. split; [intros S0; destruct (B0 S0) as (X & Y); split; [exact X|]; intros v I; rewrite <- E; auto|]. intros v. rewrite <- F, <- E. auto.
    - right; left. split; [exact A|]. split; [exact B0|]. split; [exists v; now rewrite <- E|]. intros w. rewrite <- F. auto.
    - right; right; left. split; [exact A|]. split; [exact B0|]. split; [intros v I; rewrite <- E; auto|]. intros v. rewrite <- F, <- E. auto.
    - right; right; right. split; [exact A|]. intros v. rewrite <- F. auto.
  Qed.
  Lemma omods_ext strict ms : forall O1 O2 P1 P2, (forall k v, O1 k v <-> O2 k v) -> (forall k v, P1 k v <-> P2 k v) -> omods strict ms O1 P1 -> omods strict ms O2 P2.
  Proof.
    induction ms as [|m ms IH]; intros O1 O2 P1 P2 E F H; cbn [omods] in *.
    - intros k v. rewrite <- E, <- F. auto.
    - destruct H as (Q & H1 & H2). exists Q. split; [exact (omod_ext strict m O1 O2 Q Q E (fun k v => iff_refl _) H1)|]. exact (IH Q Q P1 P2 (fun k v => iff_refl _) F H2).
  Qed.
  Lemma omods_snoc strict ms m : forall O P Q, omods strict ms O P -> omod strict m P Q -> omods strict (ms ++ [m]) O Q.
  Proof.
    induction ms as [|m0 ms IH]; intros O P Q H1 H2; cbn [app omods] in *.
    - exists Q. split; [|tauto]. apply (omod_ext strict m P O Q Q); [exact H1|tauto|exact H2].
    - destruct H1 as (R & H1 & H3). exists R. split; [exact H1|]. exact (IH R P Q H3 H2).
  Qed.
  Lemma omod_det strict m O P Q : omod strict m O P -> omod strict m O Q -> forall k v, P k v <-> Q k v.
  Proof.
    intros (A1 & A2) (B1 & B2) k v. cbn zeta in *. destruct (list_eq_dec Byte.byte_eq_dec k (lower_bytes (m_attr m))) as [->|N]; [|rewrite (A1 k N v), (B1 k N v); tauto].
    destruct A2 as [(a1 & a2 & a3)|[(a1 & a2 & a3 & a4)|[(a1 & a2 & a3 & a4)|(a1 & a2)]]]; destruct B2 as [(b1 & b2 & b3)|[(b1 & b2 & b3 & b4)|[(b1 & b2 & b3 & b4)|(b1 & b2)]]]; try congruence.
    - now rewrite a3, b3.
    - specialize (a4 v). specialize (b4 v). tauto.
    - now rewrite a4, b4.
    - now rewrite a2, b2.
  Qed.
  Lemma omods_det strict ms : forall O P Q, omods strict ms O P -> omods strict ms O Q -> forall k v, P k v <-> Q k v.
  Proof.
    induction ms as [|m ms IH]; intros O P Q H1 H2 k v; cbn [omods] in *; [now rewrite H1, H2|].
    destruct H1 as (R1 & X1 & Y1). destruct H2 as (R2 & X2 & Y2). apply (IH R2 P Q); [|exact Y2].
    apply (omods_ext strict ms R1 R2 P P); [exact (omod_det strict m O R1 R2 X1 X2)|tauto|exact Y1].
  Qed.
  Lemma to_mod_fun m x y : to_mod m x -> to_mod m y -> x = y.
  Proof. intros (k & vs & A & B0 & ->) (k' & vs' & A' & B' & ->). congruence. Qed.
  Lemma to_mods_fun js : forall ms ms', Forall2 to_mod js ms -> Forall2 to_mod js ms' -> ms = ms'.
  Proof.
    induction js as [|j js IH]; intros ms ms' H H'; inversion H as [|? x ? xs A A']; inversion H' as [|? y ? ys B0 B']; subst; [reflexivity|].
    f_equal; [exact (to_mod_fun j x y A B0)|auto].
  Qed.
  Lemma as_ldap_sends d js o : as_ldap d js = Ok o -> exists t ms, utf8_encode (dn_text d) = Ok t /\ Forall2 to_mod js ms /\ o = request_obj (Modify t ms).
  Proof.
    unfold as_ldap. intros H. apply bind_ok in H as (t & T & H). apply bind_ok in H as (l & L & H). apply Ok_inj in H. subst o.
    apply DeltaProofs.mapR_Forall2 in L.
    assert (exists ms, Forall2 to_mod js ms /\ l = map mod_obj ms) as (ms & A & ->).
    { clear T. induction L as [|j o js l E L (ms & A & ->)]; [exists []; split; [constructor|reflexivity]|].
      apply to_mod_as_ldap in E as (x & X & ->). exists (x :: ms). split; [constructor; auto|reflexivity]. }
    exists t, ms. auto.
  Qed.

  (** *** The invariant of an entry with its server *)
  Definition utf8_mod (m : modification) : Prop :=
    (exists s, utf8_decode (m_attr m) = Ok s) /\ forall b, In b (m_values m) -> exists s, utf8_decode b = Ok s.
  Lemma typed_utf8 t v b : typed t v -> to_bytes v = Ok b -> exists s, utf8_decode b = Ok s.
  Proof.
    destruct t, v as [s|c]; cbn [typed to_bytes]; try tauto; intros (x & X) E; [|apply Ok_inj in E; subst; eauto]. exists s. apply utf8_iff. exact E.
  Qed.
  Lemma to_mod_utf8 kt vt m x : to_mod m x -> name kt (d_key m) -> Forall (typed vt) (d_vals m) -> utf8_mod x.
  Proof.
    intros (k & vs & K & V & ->) (N & _) F. split; cbn [mod_of m_attr m_values]; [exact (typed_utf8 kt _ _ N K)|]. intros b I.
    apply (in_bytes _ vs V) in I as (v & I & E). rewrite Forall_forall in F. exact (typed_utf8 vt v b (F v I) E).
  Qed.
  Definition winv (strict kt vt : bool) (w : world) : Prop :=
    match w with
    | (c, srv, p) =>
        ent_ok kt vt (y_entry c) /\ ent_ok kt vt (y_remote c) /\ y_deleted c = false /\ (forall k v, octs (y_remote c) k v <-> srv k v) /\
        exists ms, Forall2 to_mod (y_journal c) ms /\ Forall utf8_mod ms /\ omods strict ms srv (octs (y_entry c)) /\
          forall o, p = Some o -> exists d, utf8_encode (dn_text (y_dn c)) = Ok d /\ o = request_obj (Modify d ms)
    end.
  Lemma winv_step strict kt vt w w' : winv strict kt vt w -> wstep lower oc_first strict kt vt w w' -> winv strict kt vt w'.
  Proof.
    intros I H. destruct H as [x c c' r O F H|c c' r O H|c O net o r H|c O net r H|c c' r O O' d ms m A H|c c' r O o x N H]; destruct I as (OE & OR & D & R & ms0 & J & U & M & P).
    - destruct (edit_step strict kt vt x c c' r OE F H) as (OE' & DN & RM & DL & [(J' & E)|(_ & m & y & J' & TM & NM & FM & OM)]).
      + split; [exact OE'|]. rewrite RM. split; [exact OR|]. rewrite DL. split; [exact D|]. split; [exact R|]. exists ms0. rewrite J'. split; [exact J|]. split; [exact U|].
        split; [|discriminate]. apply (omods_ext strict ms0 O O (octs (y_entry c))); [tauto| |exact M]. intros k v. symmetry. apply E.
      + split; [exact OE'|]. rewrite RM. split; [exact OR|]. rewrite DL. split; [exact D|]. split; [exact R|]. exists (ms0 ++ [y]). rewrite J'.
        split; [apply Forall2_app; [exact J|constructor; [exact TM|constructor]]|].
        split; [apply Forall_app; split; [exact U|constructor; [exact (to_mod_utf8 kt vt m y TM NM FM)|constructor]]|]. split; [|discriminate]. exact (omods_snoc strict ms0 y O _ _ M OM).
    - destruct (undo_step kt vt c OR D) as (c2 & H2 & OE' & DN & RM & DL & J' & E). rewrite H in H2. injection H2 as -> _.
      split; [exact OE'|]. rewrite RM. split; [exact OR|]. split; [exact DL|]. split; [exact R|]. exists []. rewrite J'. split; [constructor|]. split; [constructor|]. split; [|discriminate].
      cbn [omods]. intros k v. rewrite E. apply R.
    - split; [exact OE|]. split; [exact OR|]. split; [exact D|]. split; [exact R|]. exists ms0. split; [exact J|]. split; [exact U|]. split; [exact M|]. intros o' [= <-].
      unfold c_commit in H. destruct (check c); [|discriminate]. destruct (y_journal c) as [|j js] eqn:JS; [discriminate|].
      destruct (as_ldap (y_dn c) (j :: js)) as [o1|] eqn:AL; [|discriminate]. destruct net; [discriminate|]. injection H as <- _.
      destruct (as_ldap_sends _ _ _ AL) as (t & ms & T & F & ->). exists t. split; [exact T|]. now rewrite (to_mods_fun _ _ _ F J).
    - split; [exact OE|]. split; [exact OR|]. split; [exact D|]. split; [exact R|]. exists ms0. auto.
    - destruct (P _ eq_refl) as (d' & DT & E). injection E as -> E. assert (ms = ms0) as ->.
      { clear - E. revert ms0 E. induction ms as [|m ms IH]; intros [|m0 ms0] E; try discriminate; [reflexivity|]. cbn [map] in E. injection E as E1 E2 E3 E4. f_equal; [|auto].
        destruct m, m0; cbn in *. subst. f_equal. clear - E3. revert m_values0 E3. induction m_values as [|b l IH]; intros [|b0 l0] E; try discriminate; [reflexivity|].
        injection E as -> E. f_equal. auto. }
      destruct (success_step kt vt c (response_obj (ModifyResponse (mkResult 0 [] m))) OE D) as (c2 & H2 & EE & OR' & DL & J' & OC).
      { cbn. destruct (cls_dec KModResp KModResp) as [_|N0]; [reflexivity|contradiction]. }
      rewrite H in H2. injection H2 as -> _. cbn [winv]. rewrite EE. split; [exact OE|]. split; [exact OR'|]. split; [exact DL|].
      pose proof (omods_det strict ms0 O _ _ A M) as DT'. split; [intros k v; rewrite OC; symmetry; apply DT'|]. exists []. rewrite J'. split; [constructor|]. split; [constructor|]. split; [|discriminate].
      cbn [omods]. intros k v. symmetry. apply DT'.
    - destruct (refused_step c x N) as (y & H2). rewrite H in H2. injection H2 as -> _. split; [exact OE|]. split; [exact OR|]. split; [exact D|]. split; [exact R|].
      exists ms0. split; [exact J|]. split; [exact U|]. split; [exact M|discriminate].
  Qed.
  Lemma winv_start strict kt vt d its : ent_ok kt vt (new_entry lower d its) -> winv strict kt vt (new_cent lower d its, octs (new_entry lower d its), None).
  Proof.
    intros O. split; [exact O|]. split; [exact O|]. split; [reflexivity|]. split; [cbn; tauto|]. exists []. split; [constructor|]. split; [constructor|]. split; [cbn; tauto|discriminate].
  Qed.
  Lemma winv_reach strict kt vt w w' : winv strict kt vt w -> wreach lower oc_first strict kt vt w w' -> winv strict kt vt w'.
  Proof. intros I H. induction H as [|w1 w2 H IH S0]; [exact I|]. exact (winv_step strict kt vt w1 w2 IH S0). Qed.

  Definition same_map (O P : dmap) : Prop := forall k v, O k v <-> P k v.
  Lemma commit_world strict kt vt d its c O p : (forall k vs, In (k, vs) its -> name kt k /\ Forall (typed vt) vs) ->
    wreach lower oc_first strict kt vt (new_cent lower d its, octs (new_entry lower d its), None) (c, O, p) ->
    (y_journal c = [] -> same_map (octs (y_entry c)) O) /\
    (exists c', c_undo lower oc_first c = (c', Ok tt) /\ same_map (octs (y_entry c')) O /\ y_journal c' = []) /\
    (p = None -> y_journal c <> [] -> forall b, utf8_encode (dn_text (y_dn c)) = Ok b ->
       exists ms, c_commit None c = ([request_obj (Modify b ms)], Ok XNone) /\ omods strict ms O (octs (y_entry c))) /\
    (forall o, p = Some o -> exists b ms, utf8_encode (dn_text (y_dn c)) = Ok b /\ o = request_obj (Modify b ms) /\ omods strict ms O (octs (y_entry c)) /\ Forall utf8_mod ms /\
       forall m, exists c', commit_success lower oc_first (response_obj (ModifyResponse (mkResult 0 [] m))) c = (c', Ok tt) /\
         y_entry c' = y_entry c /\ y_journal c' = []).
  Proof.
    intros T H. pose proof (winv_reach strict kt vt _ _ (winv_start strict kt vt d its (new_entry_ent kt vt d its T)) H) as (OE & OR & D & R & ms & J & U & M & P).
    split; [|split; [|split]].
    - intros E. rewrite E in J. inversion J; subst. exact M.
    - destruct (undo_step kt vt c OR D) as (c2 & H2 & _ & _ & _ & _ & J' & E). exists c2. split; [exact H2|]. split; [|exact J']. intros k v. rewrite E. apply R.
    - intros _ NJ b DB. exists ms. split; [|exact M]. unfold c_commit, check. rewrite D. destruct (y_journal c) as [|j js] eqn:EJ; [congruence|].
      unfold as_ldap. rewrite DB. cbn [bind].
      assert (L : mapR mod_as_ldap (j :: js) = Ok (map mod_obj ms)).
      { clear - J. induction J as [|a x l1 l2 TM F IH]; [reflexivity|]. cbn [mapR map]. rewrite (proj2 (to_mod_as_ldap a (mod_obj x))) by eauto. cbn [bind]. rewrite IH. reflexivity. }
      rewrite L. reflexivity.
    - intros o E. destruct (P o E) as (b & DB & ->). exists b, ms. split; [exact DB|]. split; [reflexivity|]. split; [exact M|]. split; [exact U|]. intros m.
      destruct (success_step kt vt c (response_obj (ModifyResponse (mkResult 0 [] m))) OE D) as (c2 & H2 & EE & _ & _ & J' & _).
      { cbn. destruct (cls_dec KModResp KModResp) as [_|N0]; [reflexivity|contradiction]. }
      exists c2. auto.
  Qed.

  (** *** The same modifications on an entry of the directory *)
  Lemma bytes_ent e : entry_ok false false e -> ent_ok false false e.
  Proof.
    intros O. split; [exact O|]. apply Forall_forall. intros a I. destruct (proj1 (Forall_forall _ _) (proj1 O) a I) as (T & _). split; [exact T|].
    intros s E. rewrite E in T. contradiction.
  Qed.
  Lemma octs_bytes e k b : entry_ok false false e -> (exists s, utf8_decode k = Ok s) -> (octs e (lower_bytes k) b <-> holds e (PBytes k) (PBytes b)).
  Proof.
    intros O U. rewrite (octs_at false false e (PBytes k) k b (bytes_ent e O)); [|split; [exact U|discriminate]|reflexivity]. split.
    - intros (v & H & E). pose proof (holds_typed false false e _ v O H) as T. destruct v as [s|x]; [contradiction|]. cbn in E. apply Ok_inj in E. now subst.
    - intros H. exists (PBytes b). split; [exact H|reflexivity].
  Qed.
  Lemma typed_false v : typed false v <-> exists b s, v = PBytes b /\ utf8_decode b = Ok s.
  Proof. destruct v as [s|b]; cbn [typed]; split; [tauto|intros (b & s' & [=] & _)|intros (s & H); eauto|intros (b' & s & [= <-] & H); eauto]. Qed.
  Lemma patch_omod m d e Q : entry_ok false false e -> utf8_mod m -> is_mod m d -> omod false m (octs e) Q ->
    exists e', patch1 lower d e = (e', Ok tt) /\ entry_ok false false e' /\ e_dn e' = e_dn e /\ forall k v, octs e' k v <-> Q k v.
  Proof.
    intros O (UA & UV) (KD & KE & ND & VE) (M1 & M2). cbn zeta in *. destruct d as [kd dk dv]. cbn [d_kind d_key d_vals] in *. subst dk.
    assert (DK : delta_ok false false (mkDelta kd (PBytes (m_attr m)) dv)).
    { split; [exact UA|]. split; [|exact ND]. apply Forall_forall. intros v I. apply VE in I as (b & -> & I). destruct (UV b I) as (s & S0). apply typed_false. eauto. }
    destruct (represents_some lower e) as (A & R). destruct (patch1_spec lower false false _ e A O DK R) as (e' & r & PE & O' & DN & CASE).
    exists e'. rewrite PE.
    assert (AT : forall k, (exists s, utf8_decode k = Ok s) -> match A (lowv (PBytes k)) with Some P => has e (PBytes k) /\ forall b, P (PBytes b) <-> octs e (lower_bytes k) b | None => forall b, ~ octs e (lower_bytes k) b end).
    { intros k U. specialize (R (PBytes k)). destruct (A (lowv (PBytes k))) as [P|].
      - split; [exact (proj1 R)|]. intros b. rewrite (octs_bytes e k b O U). apply R.
      - intros b H. rewrite (octs_bytes e k b O U) in H. apply R. destruct H as (a & I & L & _). exists a. auto. }
    set (mk := PBytes (m_attr m)) in *.
    assert (DV : forall b, In (PBytes b) dv <-> In b (m_values m)).
    { intros b. rewrite VE. split; [intros (b' & [= <-] & I); exact I|eauto]. }
    destruct CASE as [(-> & A' & MO & R')|(-> & MO)].
    - split; [reflexivity|]. split; [exact O'|]. split; [exact DN|]. intros k v.
      assert (OTHER : k <> lower_bytes (m_attr m) -> octs e' k v <-> octs e k v).
      { intros N. rewrite (octs_any false false e' k v (bytes_ent _ O')), (octs_any false false e k v (bytes_ent _ O)).
        assert (X : forall k0 kb w, name false k0 -> to_bytes k0 = Ok kb -> lower_bytes kb = k -> (holds e' k0 w <-> holds e k0 w)).
        { intros k0 kb w NK KB L. destruct k0 as [s|b0]; [destruct NK; contradiction|]. cbn in KB. apply Ok_inj in KB. subst b0.
          destruct (represents_same lower e e' A A' (PBytes kb) w R R') as (_ & H); [|exact H]. apply (modifies_other lower _ A A' _ MO). cbn [d_key].
          unfold mk. cbn [EntryModel.lowv]. congruence. }
        split; intros (k0 & kb & w & NK & KB & L & H & VB); exists k0, kb, w; (split; [exact NK|]; split; [exact KB|]; split; [exact L|]; split; [|exact VB]); apply (X k0 kb w NK KB L); exact H. }
      destruct (list_eq_dec Byte.byte_eq_dec k (lower_bytes (m_attr m))) as [->|N]; [|rewrite (M1 k N v); auto].
      rewrite (octs_bytes e' _ v O' UA). fold mk. specialize (R' mk).
      assert (AM := AT (m_attr m) UA). cbn [EntryModel.lowv] in AM.
      assert (NE : dv = [] <-> m_values m = []).
      { split; intros E.
        - destruct (m_values m) as [|b r] eqn:EV; [reflexivity|]. exfalso. assert (I : In (PBytes b) dv) by (apply DV; now left). rewrite E in I. exact I.
        - destruct dv as [|w r] eqn:EV; [reflexivity|]. exfalso. destruct (proj1 (VE w) (or_introl eq_refl)) as (b & _ & I). rewrite E in I. exact I. }
      destruct KD as [(Z0 & ->)|[(Z0 & ->)|(Z0 & ->)]]; inversion MO; subst; unfold upd in R'; rewrite pyval_eqb_refl in R'.
      + destruct M2 as [(_ & _ & M2)|[(Z1 & _)|[(Z1 & _)|(Z1 & _)]]]; try congruence. destruct R' as (_ & R'). rewrite <- R', M2, DV. split.
        * intros [I|(P & E & PV)]; [now right|left]. rewrite E in AM. apply AM. exact PV.
        * intros [H|I]; [right|now left]. destruct (A (PBytes (lower_bytes (m_attr m)))) as [P|]; [|exfalso; exact (AM v H)]. exists P. split; [reflexivity|]. now apply AM.
      + destruct M2 as [(Z1 & _)|[(_ & V0 & _ & M2)|[(_ & V0 & _)|(Z1 & _)]]]; try congruence; [|exfalso; apply V0; now apply NE].
        split; [intros (a & I & L & _); exfalso; apply R'; exists a; auto|intros H; exfalso; exact (M2 v H)].
      + destruct M2 as [(Z1 & _)|[(_ & V0 & _ & M2)|[(_ & V0 & _ & M2)|(Z1 & _)]]]; try congruence; [exfalso; match goal with H : dv <> [] |- _ => apply H end; now apply NE|].
        destruct R' as (_ & R'). rewrite <- R', M2, DV. match goal with H : A _ = Some ?p |- _ => change (A (PBytes (lower_bytes (m_attr m))) = Some p) in H; rewrite H in AM end. rewrite <- (proj2 AM v). tauto.
      + destruct M2 as [(Z1 & _)|[(Z1 & _)|[(Z1 & _)|(_ & M2)]]]; try congruence. destruct R' as (_ & R'). now rewrite <- R', M2, DV.
      + destruct M2 as [(Z1 & _)|[(Z1 & _)|[(Z1 & _)|(_ & M2)]]]; try congruence. rewrite M2, <- DV. split; [|intros []].
        intros (a & I & L & _). exfalso. apply R'. exists a; auto.
    - exfalso. assert (AM := AT (m_attr m) UA). cbn [EntryModel.lowv] in AM.
      destruct KD as [(Z0 & ->)|[(Z0 & ->)|(Z0 & ->)]]; inversion MO; subst.
      + match goal with H : A _ = None |- _ => change (A (PBytes (lower_bytes (m_attr m))) = None) in H; rewrite H in AM end.
        destruct M2 as [(Z1 & _)|[(_ & _ & (b & V0) & _)|[(_ & V0 & V1 & _)|(Z1 & _)]]]; try congruence; [exact (AM b V0)|].
        destruct (m_values m) as [|b r]; [congruence|]. exact (AM b (V1 b (or_introl eq_refl))).
      + match goal with H : A _ = Some ?p |- _ => change (A (PBytes (lower_bytes (m_attr m))) = Some p) in H; rewrite H in AM end. match goal with H : ~ Forall _ _ |- _ => apply H end. apply Forall_forall. intros w I.
        apply VE in I as (b & -> & I). apply (proj2 AM b).
        destruct M2 as [(Z1 & _)|[(_ & V0 & _ & _)|[(_ & V0 & V1 & _)|(Z1 & _)]]]; try congruence; [rewrite V0 in I; destruct I|exact (V1 b I)].
  Qed.
  Lemma patch_omods ms : forall ds e Q, entry_ok false false e -> Forall utf8_mod ms -> Forall2 is_mod ms ds -> omods false ms (octs e) Q ->
    exists e', patch_all lower ds e = (e', Ok tt) /\ entry_ok false false e' /\ e_dn e' = e_dn e /\ forall k v, octs e' k v <-> Q k v.
  Proof.
    induction ms as [|m ms IH]; intros ds e Q O U I H; inversion I as [|? d ? ds' I1 I2]; subst; cbn [patch_all omods] in *.
    - exists e. split; [reflexivity|]. split; [exact O|]. split; [reflexivity|]. intros k v. symmetry. apply H.
    - destruct H as (Q1 & H1 & H2). destruct (patch_omod m d e Q1 O (Forall_inv U) I1 H1) as (e1 & P1 & O1 & D1 & E1). rewrite P1.
      destruct (IH ds' e1 Q O1 (Forall_inv_tail U) I2) as (e2 & P2 & O2 & D2 & E2).
      { apply (omods_ext false ms Q1 (octs e1) Q Q); [intros k v; symmetry; apply E1|tauto|exact H2]. }
      exists e2. split; [exact P2|]. split; [exact O2|]. split; [congruence|exact E2].
  Qed.
  Lemma omod_lax m O P : omod true m O P -> omod false m O P.
  Proof.
    intros (H1 & H2). split; [exact H1|]. destruct H2 as [(A & _ & C)|H2]; [left; split; [exact A|]; split; [discriminate|exact C]|right; exact H2].
  Qed.
  Lemma omods_lax strict ms : forall O P, omods strict ms O P -> omods false ms O P.
  Proof.
    destruct strict; [|auto]. induction ms as [|m ms IH]; intros O P H; [exact H|]. destruct H as (Q & H1 & H2). exists Q. split; [now apply omod_lax|auto].
  Qed.
End Syntax.
