(** LDIF: what the parser makes of the lines of one record. *)
From Verif Require Import BaseFacts Utf8Model Utf8Proofs DnModel DnSpec DnProofs EntryModel EntrySpec EntryProofs
  InmemProofs UtilModel LdifModel LdifSpec LdifProofs.

(** A line without its newline *)
Definition ln (k v : bytes) : bytes :=
  if needs_base64 v then k ++ B ":: " ++ b64_encode v else k ++ B ": " ++ v.
Lemma attr_line_ln k v : attr_line k v = ln k v ++ [NL].
Proof. unfold attr_line, ln. destruct (needs_base64 v); now rewrite <- !app_assoc. Qed.

Lemma split1_colon k v : without 58 k -> split1 COLON (k ++ COLON :: v) = Some (k, v).
Proof.
  intros W. induction k as [|c k IH]; cbn [app split1].
  - now rewrite beqb_refl.
  - rewrite IH by (intros x I; apply W; now right).
    destruct (beqb_spec c COLON) as [->|_]; [|reflexivity]. exfalso. apply (W COLON); [now left|]. apply b2z_z2b_small. lia.
Qed.
Lemma lstrip_id v : starts_with [SP] v = false -> lstrip v = v.
Proof.
  destruct v as [|c v]; [reflexivity|]. cbn [starts_with lstrip]. rewrite andb_true_r.
  destruct (beqb_spec c SP) as [->|N]; [now rewrite beqb_refl|reflexivity].
Qed.
Lemma parse_plain k v : without 58 k -> starts_with [SP] v = false -> parseLine (k ++ B ": " ++ v) = Ok (k, v).
Proof.
  intros W S0. change (B ": " ++ v) with (COLON :: SP :: v). unfold parseLine. rewrite (split1_colon k _ W).
  unfold parseValue. change (starts_with [COLON] (SP :: v)) with false. change (starts_with (B "<") (SP :: v)) with false.
  cbn iota. cbn [lstrip]. rewrite beqb_refl. cbn [bind]. now rewrite lstrip_id.
Qed.
Lemma parse_base64 k v : without 58 k -> parseLine (k ++ B ":: " ++ b64_encode v) = Ok (k, v).
Proof.
  intros W. change (B ":: " ++ b64_encode v) with (COLON :: COLON :: SP :: b64_encode v). unfold parseLine. rewrite (split1_colon k _ W).
  unfold parseValue. cbn [starts_with]. rewrite beqb_refl. cbn [andb tl lstrip]. rewrite beqb_refl.
  rewrite lstrip_id; [now rewrite b64_roundtrip|].
  pose proof (b64_line v) as F. destruct (b64_encode v) as [|c r]; [reflexivity|]. inversion F as [|? ? (_ & N & _) _]; subst.
  cbn [starts_with]. rewrite andb_true_r. destruct (beqb_spec SP c) as [<-|_]; [|reflexivity].
  exfalso. apply N. apply b2z_z2b_small. lia.
Qed.
Lemma not_b64 v : needs_base64 v = false -> starts_with [SP] v = false /\ without 10 v /\ without 13 v.
Proof.
  unfold needs_base64. rewrite !orb_false_iff. intros (((((((_ & _) & _) & S0) & _) & _) & _) & P). split; [exact S0|].
  unfold containsNonprintable in P.
  assert (Q : forall b, In b v -> nonprintable b = false).
  { intros b I. destruct (nonprintable b) eqn:E; [|reflexivity]. assert (existsb nonprintable v = true) by (apply existsb_exists; eauto). congruence. }
  split; intros b I E; specialize (Q b I); unfold nonprintable in Q; rewrite E in Q; rewrite !orb_false_iff in Q; intuition discriminate.
Qed.
Lemma parse_ln k v : without 58 k -> parseLine (ln k v) = Ok (k, v).
Proof.
  intros W. unfold ln. destruct (needs_base64 v) eqn:E; [now apply parse_base64|].
  apply parse_plain; [exact W|]. now apply not_b64.
Qed.

(** Lines that stand alone *)
Definition fine (l : bytes) : Prop :=
  l <> [] /\ starts_with [SP] l = false /\ starts_with (B "#") l = false /\ without 10 l.
Lemma without_app c a b : without c a -> without c b -> without c (a ++ b).
Proof. intros A C x I. apply in_app_or in I as [I|I]; auto. Qed.
Lemma without_lit c l : existsb (fun b => b2z b =? c) l = false -> without c l.
Proof.
  intros H b I E. assert (X : existsb (fun b => b2z b =? c) l = true) by (apply existsb_exists; exists b; split; [exact I|lia]). congruence.
Qed.
Lemma first_app k c r l : not_first (b2z c) k -> c <> r -> starts_with [c] (k ++ r :: l) = false.
Proof.
  intros N D. destruct k as [|x k]; cbn [app starts_with]; rewrite andb_true_r.
  - now apply beqb_neq.
  - apply beqb_neq. intros <-. exact (N c k eq_refl eq_refl).
Qed.
Lemma fine_colon k r : without 10 k -> not_first 32 k -> not_first 35 k -> without 10 r -> fine (k ++ COLON :: r).
Proof.
  intros N1 N3 N4 R. unfold fine. split; [destruct k; discriminate|]. split; [|split].
  - apply first_app; [exact N3|discriminate].
  - apply first_app; [exact N4|discriminate].
  - apply without_app; [exact N1|]. intros x [<-|I]; [now vm_compute|auto].
Qed.
Lemma fine_ln k v : name_ok k -> fine (ln k v).
Proof.
  intros (N1 & N2 & N3 & N4). unfold ln. destruct (needs_base64 v) eqn:E.
  - change (B ":: " ++ b64_encode v) with (COLON :: B ": " ++ b64_encode v). apply fine_colon; auto.
    apply without_app; [now apply without_lit|]. pose proof (b64_line v) as F. rewrite Forall_forall in F. intros b I. apply F, I.
  - change (B ": " ++ v) with (COLON :: B " " ++ v). apply fine_colon; auto.
    apply without_app; [now apply without_lit|]. now apply not_b64.
Qed.
Lemma name_lit k : existsb (fun b => (b2z b =? 10) || (b2z b =? 58)) k = false ->
  (match k with b :: _ => (b2z b =? 32) || (b2z b =? 35) | [] => false end) = false -> name_ok k.
Proof.
  intros H F. assert (Q : forall b, In b k -> (b2z b =? 10) || (b2z b =? 58) = false).
  { intros b I. destruct ((b2z b =? 10) || (b2z b =? 58)) eqn:E; [|reflexivity].
    assert (existsb (fun b => (b2z b =? 10) || (b2z b =? 58)) k = true) by (apply existsb_exists; eauto). congruence. }
  repeat split.
  - intros b I E. specialize (Q b I). lia.
  - intros b I E. specialize (Q b I). lia.
  - intros b r -> E. rewrite E in F. discriminate.
  - intros b r -> E. rewrite E in F. discriminate.
Qed.

Section Read.
  Variable lower : str -> str.
  Variable io : Z -> Z -> res Z.
  Variable vio : str -> res Z.
  Variable is_delta : bool.
  Notation lineReceived := (lineReceived lower io vio is_delta).
  Notation logical := (logicalLineReceived lower io vio is_delta).
  Notation run := (run lower io vio is_delta).

  Definition map_st (f : pstate -> pstate) (x : out) : out :=
    match x with (o, Ok s) => (o, Ok (f s)) | (o, Err e) => (o, Err e) end.
  Lemma logical_set_last s x l : logical (set_last x s) l = map_st (set_last x) (logical s l).
  Proof.
    unfold logicalLineReceived. destruct (starts_with (B "#") l); [reflexivity|].
    destruct s as [m d da la ve mo sp]. cbn [set_last p_mode].
    destruct m; unfold state_HEADER, state_WAIT_FOR_DN, state_IN_ENTRY, state_WAIT_FOR_CHANGETYPE, state_WAIT_FOR_MOD_SPEC, state_IN_MOD_SPEC, state_IN_ADD_ENTRY, state_IN_DELETE;
      unfold with_res, ok, fail; cbn [set_last set_mode set_dn set_version set_mods set_spec p_mode p_dn p_data p_last p_version p_mods p_spec];
      repeat (match goal with |- context [match ?x with _ => _ end] =>
        match x with context [match _ with _ => _ end] => fail 1 | _ => destruct x eqn:?; try discriminate end end; cbn [map_st]); reflexivity.
  Qed.

  Fixpoint lrun (s : pstate) (ls : list bytes) : out :=
    match ls with [] => ok s | l :: r => andThen (logical s l) (fun s => lrun s r) end.
  Lemma lrun_app a : forall s b, lrun s (a ++ b) = andThen (lrun s a) (fun s => lrun s b).
  Proof.
    induction a as [|l a IH]; intros s b; cbn [app lrun].
    - unfold ok. now rewrite andThen_ok.
    - rewrite andThen_assoc. apply andThen_ext. intros s'. apply IH.
  Qed.
  Lemma andThen_map f x g : andThen (map_st f x) g = andThen x (fun s => g (f s)).
  Proof. now destruct x as (o & [s|e]). Qed.
  Lemma set_last_twice a b s : set_last a (set_last b s) = set_last a s. Proof. reflexivity. Qed.
  Lemma set_last_id s : p_last s = None -> set_last None s = s.
  Proof. destruct s. cbn. now intros ->. Qed.

  Definition short (l : bytes) : Prop := zlen l <= MAX_LENGTH.
  Lemma lrun_last l ls : forall s, holds_after (fun s' => p_last s' = p_last s) (lrun s (l :: ls)).
  Proof.
    revert l. induction ls as [|l' ls IH]; intros l s; cbn [lrun].
    - eapply holds_andThen; [apply logical_last|]. intros s' E. exact E.
    - eapply holds_andThen; [apply logical_last|]. intros s' E. specialize (IH l' s'). cbn [lrun] in IH.
      eapply holds_imp; [|exact IH]. cbn beta. congruence.
  Qed.
  Lemma run_pending ls : forall s l, Forall (fun x => fine x /\ short x) ls ->
    run (set_last (Some l) s) (ls ++ [[]]) = lrun (set_last None s) (l :: ls ++ [[]]).
  Proof.
    induction ls as [|l' ls IH]; intros s l F; cbn [app LdifProofs.run].
    - change (MAX_LENGTH <? zlen []) with false. cbn iota.
      unfold LdifModel.lineReceived. cbn [starts_with p_last set_last lrun].
      change (mkP (p_mode s) (p_dn s) (p_data s) (Some l) (p_version s) (p_mods s) (p_spec s)) with (set_last (Some l) s).
      change (mkP (p_mode s) (p_dn s) (p_data s) None (p_version s) (p_mods s) (p_spec s)) with (set_last None s).
      rewrite !andThen_assoc, !logical_set_last, !andThen_map. apply andThen_ext. intros s'.
      rewrite !andThen_assoc, !logical_set_last, !andThen_map. apply andThen_ext. intros s2.
      unfold ok. rewrite !andThen_ok. reflexivity.
    - inversion F as [|? ? (Fl & Sl) F']; subst. unfold short in Sl.
      replace (MAX_LENGTH <? zlen l') with false by lia.
      unfold LdifModel.lineReceived. destruct Fl as (N & S0 & _ & _). rewrite S0. cbn [p_last set_last].
      change (mkP (p_mode s) (p_dn s) (p_data s) (Some l) (p_version s) (p_mods s) (p_spec s)) with (set_last (Some l) s).
      change (mkP (p_mode s) (p_dn s) (p_data s) None (p_version s) (p_mods s) (p_spec s)) with (set_last None s).
      cbn [lrun]. rewrite !andThen_assoc, !logical_set_last, !andThen_map. apply andThen_ext. intros s'.
      destruct l' as [|c l']; [congruence|]. unfold ok. rewrite andThen_ok. rewrite set_last_twice.
      rewrite (IH s' (c :: l') F'). reflexivity.
  Qed.
  Lemma run_record ls s : p_last s = None -> ls <> [] -> Forall (fun x => fine x /\ short x) ls ->
    run s (ls ++ [[]]) = lrun s (ls ++ [[]]).
  Proof.
    intros L N F. destruct ls as [|l ls]; [congruence|]. inversion F as [|? ? (Fl & Sl) F']; subst. unfold short in Sl.
    cbn [app LdifProofs.run]. replace (MAX_LENGTH <? zlen l) with false by lia.
    unfold LdifModel.lineReceived. destruct Fl as (Nl & S0 & _ & _). rewrite S0, L. unfold ok. rewrite andThen_ok.
    destruct l as [|c l]; [congruence|]. rewrite andThen_ok, run_pending by exact F'. now rewrite set_last_id.
  Qed.

  (** ** Records *)
  Definition idle0 (s : pstate) : Prop :=
    p_dn s = None /\ p_data s = None /\ p_last s = None /\ p_mods s = None /\ p_spec s = None /\
    (p_mode s = HEADER \/ p_mode s = WAIT_FOR_DN).
  Definition waiting (s : pstate) : pstate := set_mode WAIT_FOR_DN s.
  Lemma waiting_idle s : idle0 s -> idle0 (waiting s).
  Proof. unfold idle0, waiting. cbn. tauto. Qed.

  (** The line of the DN: [t] is the line, [d] the DN in it *)
  Lemma dn_line s t d : idle0 s -> fine t -> parseLine t = Ok (B "dn", d) ->
    logical s t = ok (set_mode (if is_delta then WAIT_FOR_CHANGETYPE else IN_ENTRY) (set_dn (Some d) (Some []) s)).
  Proof.
    intros (D & Da & _ & _ & _ & M) (Nt & _ & C & _) P. unfold logicalLineReceived. rewrite C.
    assert (W : forall s, p_dn s = None -> p_data s = None -> state_WAIT_FOR_DN is_delta s t =
       ok (set_mode (if is_delta then WAIT_FOR_CHANGETYPE else IN_ENTRY) (set_dn (Some d) (Some []) s))).
    { intros s' E1 E2. unfold state_WAIT_FOR_DN. rewrite E1, E2. destruct t as [|c t]; [congruence|]. rewrite P. reflexivity. }
    destruct M as [->| ->].
    - unfold state_HEADER. rewrite P. cbn [with_res fst snd]. change (bytes_eqb (B "dn") (B "version")) with false. cbn [negb].
      rewrite W by assumption. reflexivity.
    - now apply W.
  Qed.

  Definition add_all (data : list (bytes * list bytes)) (kvs : list (bytes * bytes)) :=
    fold_left (fun da kv => data_add (fst kv) (snd kv) da) kvs data.
  Definition datum (data : list (bytes * list bytes)) (k v : bytes) : Prop := exists vs, In (k, vs) data /\ In v vs.
  Lemma data_add_spec k v data k' v' : datum (data_add k v data) k' v' <-> datum data k' v' \/ (k' = k /\ v' = v).
  Proof.
    induction data as [|(k1 & vs1) data IH]; cbn [data_add].
    - split.
      + intros (vs & [[= <- <-]|[]] & [<-|[]]). auto.
      + intros [(vs & [] & _)|(-> & ->)]. exists [v]. split; now left.
    - destruct (bytes_eqb_spec k k1) as [<-|N].
      + split.
        * intros (vs & [[= <- <-]|I] & J).
          -- apply in_app_or in J as [J|[<-|[]]]; [left; exists vs1; split; [now left|exact J]|auto].
          -- left. exists vs. split; [now right|exact J].
        * intros [(vs & [[= <- <-]|I] & J)|(-> & ->)].
          -- exists (vs1 ++ [v]). split; [now left|]. apply in_or_app. now left.
          -- exists vs. split; [now right|exact J].
          -- exists (vs1 ++ [v]). split; [now left|]. apply in_or_app. right. now left.
      + assert (G : forall X k0 v0, datum ((k1, vs1) :: X) k0 v0 <-> (k1 = k0 /\ In v0 vs1) \/ datum X k0 v0).
        { intros X k0 v0. split.
          - intros (vs & [[= <- <-]|I] & J); [now left|right; exists vs; auto].
          - intros [(<- & J)|(vs & I & J)]; [exists vs1; split; [now left|exact J]|exists vs; split; [now right|exact J]]. }
        rewrite !G, IH. tauto.
  Qed.
  Lemma add_all_spec kvs : forall data k v, datum (add_all data kvs) k v <-> datum data k v \/ In (k, v) kvs.
  Proof.
    induction kvs as [|(k1 & v1) kvs IH]; intros data k v; cbn [add_all fold_left]; [cbn; tauto|].
    cbn [fst snd]. specialize (IH (data_add k1 v1 data) k v). unfold add_all in IH. rewrite IH, data_add_spec. cbn [In].
    split.
    - intros [[H|(-> & ->)]|H]; auto.
    - intros [H|[[= <- <-]|H]]; auto.
  Qed.
  Lemma add_all_nil kvs : kvs <> [] -> add_all [] kvs <> [].
  Proof.
    destruct kvs as [|(k & v) kvs]; [congruence|]. intros _ E.
    assert (H : datum (add_all [] ((k, v) :: kvs)) k v) by (apply add_all_spec; right; now left).
    rewrite E in H. destruct H as (vs & [] & _).
  Qed.

  Definition items (data : list (bytes * list bytes)) : list (pyval * list pyval) :=
    map (fun kv => (PBytes (fst kv), map PBytes (snd kv))) data.
  Lemma items_says n kvs k v :
    says (new_entry lower n (items (add_all [] kvs))) k v <-> exists k0, In (k0, v) kvs /\ lower_bytes k0 = lower_bytes k.
  Proof.
    set (e := new_entry lower n (items (add_all [] kvs))).
    assert (K : forall a, In a (e_attrs e) -> exists b, s_key a = PBytes b).
    { intros a I. destruct (new_entry_spec lower n (items (add_all [] kvs)) (s_key a) (PBytes [])) as (H & _).
      destruct (proj1 H) as (k' & vs & J & E). { exists a. auto. }
      apply in_map_iff in J as (x & E2 & _). injection E2 as <- <-. cbn in E. destruct (s_key a); [discriminate|eauto]. }
    assert (V : forall a w, In a (e_attrs e) -> In w (s_vals a) -> exists b, w = PBytes b).
    { intros a w I J. destruct (new_entry_spec lower n (items (add_all [] kvs)) (s_key a) w) as (_ & H).
      destruct (proj1 H) as (k' & vs & J' & E & I'). { exists a. auto. }
      apply in_map_iff in J' as (x & E2 & _). injection E2 as <- <-. apply in_map_iff in I' as (b & <- & _). eauto. }
    assert (H : says e k v <-> EntrySpec.holds lower e (PBytes k) (PBytes v)).
    { split.
      - intros (a & k' & I & T & L & (w & J & T2)). exists a. split; [exact I|].
        destruct (K a I) as (b & Eb). destruct (V a w I J) as (c & ->). rewrite Eb in *. cbn in T, T2. apply Ok_inj in T, T2. subst.
        split; [cbn; now rewrite L|exact J].
      - intros (a & I & L & J). destruct (K a I) as (b & Eb). exists a, b. rewrite Eb in *. split; [exact I|]. split; [reflexivity|].
        cbn in L. injection L as L. split; [exact L|]. exists (PBytes v). split; [exact J|reflexivity]. }
    rewrite H. unfold e. destruct (new_entry_spec lower n (items (add_all [] kvs)) (PBytes k) (PBytes v)) as (_ & ->).
    split.
    - intros (k' & vs & I & L & J). apply in_map_iff in I as ((k0 & vs0) & E & I). injection E as <- <-. cbn [fst snd] in *.
      apply in_map_iff in J as (b & [= ->] & J). exists k0. cbn in L. injection L as L. split; [|exact L].
      destruct (add_all_spec kvs [] k0 v) as (A & _). destruct A as [(? & [] & _)|A]; [exists vs0; auto|exact A].
    - intros (k0 & I & L). destruct (add_all_spec kvs [] k0 v) as (_ & A). destruct A as (vs & I2 & J); [now right|].
      exists (PBytes k0), (map PBytes vs). split; [|split].
      + apply in_map_iff. exists (k0, vs). auto.
      + cbn. now rewrite L.
      + apply in_map_iff. exists v. auto.
  Qed.

  Definition lns (kvs : list (bytes * bytes)) : list bytes := map (fun kv => ln (fst kv) (snd kv)) kvs.
  Definition names (kvs : list (bytes * bytes)) : Prop := Forall (fun kv => name_ok (fst kv)) kvs.

  (** Lines of an entry, in a mode that collects them *)
  Lemma collect kvs : forall s d data, names kvs -> p_dn s = Some d -> p_data s = Some data ->
    p_mode s = IN_ENTRY \/ p_mode s = IN_ADD_ENTRY ->
    lrun s (lns kvs) = ok (set_dn (Some d) (Some (add_all data kvs)) s).
  Proof.
    induction kvs as [|(k & v) kvs IH]; intros s d data N D Da M; cbn [lns map lrun add_all fold_left].
    - destruct s. cbn in *. subst. reflexivity.
    - inversion N as [|? ? Nk N']; subst. cbn [fst snd] in *.
      assert (E : logical s (ln k v) = ok (set_dn (Some d) (Some (data_add k v data)) s)).
      { destruct (fine_ln k v Nk) as (Ne & _ & C & _). unfold logicalLineReceived. rewrite C.
        pose proof (parse_ln k v (proj1 (proj2 Nk))) as P.
        destruct M as [M|M]; rewrite M; unfold state_IN_ENTRY, state_IN_ADD_ENTRY; rewrite D, Da;
          destruct (ln k v) as [|c l]; try congruence; rewrite P; reflexivity. }
      rewrite E. unfold ok at 1. rewrite andThen_ok. fold (lns kvs).
      rewrite (IH _ d (data_add k v data) N'); cbn; auto.
  Qed.

  Lemma entry_record s t d n kvs : is_delta = false -> idle0 s -> fine t -> parseLine t = Ok (B "dn", d) ->
    read_dn io d = Ok n -> names kvs ->
    lrun s ((t :: lns kvs) ++ [[]]) = ([REntry (new_entry lower n (items (add_all [] kvs)))], Ok (waiting s)).
  Proof.
    intros De I F P R N. cbn [app lrun]. rewrite (dn_line s t d I F P), De. unfold ok at 1. rewrite andThen_ok.
    rewrite lrun_app, (collect kvs _ d []); [|exact N|reflexivity|reflexivity|now left].
    unfold ok at 1. rewrite andThen_ok. cbn [lrun]. unfold logicalLineReceived.
    cbn [starts_with B list_byte_of_string p_mode set_dn set_mode]. unfold state_IN_ENTRY.
    cbn [p_dn p_data set_dn set_mode]. unfold read_entry. rewrite R. cbn [bind with_res andThen].
    destruct I as (E1 & E2 & _). destruct s. cbn in E1, E2. subst. reflexivity.
  Qed.

  Lemma changetype_line s c d : p_dn s = Some d -> p_data s <> None -> p_mode s = WAIT_FOR_CHANGETYPE -> In c [B "modify"; B "add"; B "delete"] ->
    logical s (ln (B "changetype") c) =
      ok (if bytes_eqb c (B "modify") then set_mode WAIT_FOR_MOD_SPEC (set_mods (Some []) s)
          else if bytes_eqb c (B "add") then set_mode IN_ADD_ENTRY s else set_mode IN_DELETE s).
  Proof.
    intros D Da M I. unfold logicalLineReceived. rewrite M. unfold state_WAIT_FOR_CHANGETYPE. rewrite D. destruct (p_data s) as [da|]; [|congruence].
    destruct I as [<-|[<-|[<-|[]]]]; reflexivity.
  Qed.

  Lemma add_record s t d n kvs : is_delta = true -> idle0 s -> fine t -> parseLine t = Ok (B "dn", d) ->
    read_dn io d = Ok n -> names kvs -> kvs <> [] ->
    lrun s ((t :: ln (B "changetype") (B "add") :: lns kvs) ++ [[]]) = ([RAdd (new_entry lower n (items (add_all [] kvs)))], Ok (waiting s)).
  Proof.
    intros De I F P R N Ne. cbn [app lrun]. rewrite (dn_line s t d I F P).
    replace (if is_delta then WAIT_FOR_CHANGETYPE else IN_ENTRY) with WAIT_FOR_CHANGETYPE by (now rewrite De). unfold ok at 1. rewrite andThen_ok.
    rewrite (changetype_line _ (B "add") d); [|reflexivity|discriminate|reflexivity|cbn; tauto]. unfold ok at 1. rewrite andThen_ok.
    change (bytes_eqb (B "add") (B "modify")) with false. rewrite bytes_eqb_refl. cbn iota.
    rewrite lrun_app, (collect kvs _ d []); [|exact N|reflexivity|reflexivity|now right].
    unfold ok at 1. rewrite andThen_ok. cbn [lrun]. unfold logicalLineReceived.
    cbn [starts_with B list_byte_of_string p_mode set_dn set_mode]. unfold state_IN_ADD_ENTRY.
    cbn [p_dn p_data set_dn set_mode]. pose proof (add_all_nil kvs Ne) as X. unfold read_entry, items in *.
    destruct (add_all [] kvs) as [|y ys]; [congruence|]. rewrite R. cbn [bind with_res andThen].
    destruct I as (E1 & E2 & _). destruct s. cbn in E1, E2. subst. reflexivity.
  Qed.

  Lemma delete_record s t d n : is_delta = true -> idle0 s -> fine t -> parseLine t = Ok (B "dn", d) ->
    read_dn io d = Ok n ->
    lrun s ([t; ln (B "changetype") (B "delete")] ++ [[]]) = ([RDelete n], Ok (waiting s)).
  Proof.
    intros De I F P R. cbn [app lrun]. rewrite (dn_line s t d I F P).
    replace (if is_delta then WAIT_FOR_CHANGETYPE else IN_ENTRY) with WAIT_FOR_CHANGETYPE by (now rewrite De). unfold ok at 1. rewrite andThen_ok.
    rewrite (changetype_line _ (B "delete") d); [|reflexivity|discriminate|reflexivity|cbn; tauto]. unfold ok at 1. rewrite andThen_ok.
    change (bytes_eqb (B "delete") (B "modify")) with false. change (bytes_eqb (B "delete") (B "add")) with false. cbn iota.
    unfold logicalLineReceived. cbn [starts_with B list_byte_of_string p_mode set_dn set_mode]. unfold state_IN_DELETE.
    cbn [p_dn p_data set_dn set_mode]. rewrite R. cbn [with_res andThen].
    destruct I as (E1 & E2 & _). destruct s. cbn in E1, E2. subst. reflexivity.
  Qed.

  (** One modification: its kind, key and values in octets *)
  Definition modlines (m : kind * bytes * list bytes) : list bytes :=
    let '(k, key, vs) := m in ln (kind_word k) key :: lns (map (fun v => (key, v)) vs) ++ [B "-"].
  Definition moddelta (m : kind * bytes * list bytes) : delta :=
    let '(k, key, vs) := m in new_delta k (PBytes key) (map PBytes vs).
  Lemma mod_values key k vs : forall s old, name_ok key -> p_mode s = IN_MOD_SPEC -> p_spec s = Some (k, key, old) ->
    lrun s (lns (map (fun v => (key, v)) vs)) = ok (set_spec (Some (k, key, old ++ vs)) s).
  Proof.
    induction vs as [|v vs IH]; intros s old N M P; cbn [map lns lrun fst snd].
    - rewrite app_nil_r, <- P. now destruct s.
    - assert (E : logical s (ln key v) = ok (set_spec (Some (k, key, old ++ [v])) s)).
      { destruct (fine_ln key v N) as (Ne & _ & C & _). unfold logicalLineReceived. rewrite C, M. unfold state_IN_MOD_SPEC. rewrite P.
        destruct (bytes_eqb_spec (ln key v) []) as [?|_]; [congruence|].
        destruct (bytes_eqb_spec (ln key v) (B "-")) as [X|_].
        { pose proof (parse_ln key v (proj1 (proj2 N))) as Q. rewrite X in Q. discriminate. }
        rewrite (parse_ln key v (proj1 (proj2 N))). cbn [with_res fst snd]. now rewrite bytes_eqb_refl. }
      rewrite E. unfold ok at 1. rewrite andThen_ok.
      change (map (fun kv => ln (fst kv) (snd kv)) (map (fun v => (key, v)) vs)) with (lns (map (fun v => (key, v)) vs)).
      rewrite (IH _ (old ++ [v])); [|exact N|exact M|reflexivity]. rewrite <- app_assoc. reflexivity.
  Qed.
  Lemma kind_name k : name_ok (kind_word k).
  Proof. destruct k; apply name_lit; reflexivity. Qed.
  Lemma one_mod s ms m : name_ok (snd (fst m)) -> p_mode s = WAIT_FOR_MOD_SPEC -> p_mods s = Some ms -> p_spec s = None ->
    lrun s (modlines m) = ok (set_mods (Some (ms ++ [moddelta m])) s).
  Proof.
    destruct m as ((k & key) & vs). cbn [fst snd]. intros N M Mo Sp. cbn [modlines lrun].
    assert (E : logical s (ln (kind_word k) key) = ok (set_mode IN_MOD_SPEC (set_spec (Some (k, key, [])) s))).
    { pose proof (kind_name k) as Nk. destruct (fine_ln (kind_word k) key Nk) as (Ne & _ & C & _). unfold logicalLineReceived.
      rewrite C, M. unfold state_WAIT_FOR_MOD_SPEC. pose proof (parse_ln (kind_word k) key (proj1 (proj2 Nk))) as P.
      destruct (ln (kind_word k) key) as [|c l]; [congruence|]. rewrite P. cbn [with_res fst snd]. now destruct k. }
    rewrite E. unfold ok at 1. rewrite andThen_ok, lrun_app, (mod_values key k vs _ []); [|exact N|reflexivity|reflexivity].
    unfold ok at 1. rewrite andThen_ok. cbn [app lrun]. unfold logicalLineReceived.
    change (starts_with (B "#") (B "-")) with false. cbn [p_mode set_spec set_mode]. unfold state_IN_MOD_SPEC. cbn [p_spec set_spec].
    change (bytes_eqb (B "-") []) with false. rewrite bytes_eqb_refl. cbn [p_mods set_spec set_mode]. rewrite Mo. unfold ok. rewrite andThen_ok.
    destruct s. cbn in M, Sp |- *. subst. reflexivity.
  Qed.
  Lemma all_mods l : forall s ms, Forall (fun m => name_ok (snd (fst m))) l -> p_mode s = WAIT_FOR_MOD_SPEC -> p_mods s = Some ms -> p_spec s = None ->
    lrun s (concat (map modlines l)) = ok (set_mods (Some (ms ++ map moddelta l)) s).
  Proof.
    induction l as [|m l IH]; intros s ms F M Mo Sp; cbn [map concat].
    - rewrite app_nil_r. cbn [lrun]. rewrite <- Mo. now destruct s.
    - inversion F as [|? ? N F']; subst. rewrite lrun_app, (one_mod s ms m N M Mo Sp). unfold ok at 1. rewrite andThen_ok.
      rewrite (IH _ (ms ++ [moddelta m])); [|exact F'|exact M|reflexivity|exact Sp]. rewrite <- app_assoc. reflexivity.
  Qed.
  Lemma modify_record s t d n l : is_delta = true -> idle0 s -> fine t -> parseLine t = Ok (B "dn", d) ->
    read_dn io d = Ok n -> Forall (fun m => name_ok (snd (fst m))) l ->
    lrun s ((t :: ln (B "changetype") (B "modify") :: concat (map modlines l)) ++ [[]]) =
      ([RModify n (map moddelta l)], Ok (waiting s)).
  Proof.
    intros De I F P R N. cbn [app lrun]. rewrite (dn_line s t d I F P).
    replace (if is_delta then WAIT_FOR_CHANGETYPE else IN_ENTRY) with WAIT_FOR_CHANGETYPE by (now rewrite De). unfold ok at 1. rewrite andThen_ok.
    rewrite (changetype_line _ (B "modify") d); [|reflexivity|discriminate|reflexivity|cbn; tauto]. unfold ok at 1. rewrite andThen_ok.
    rewrite bytes_eqb_refl. destruct I as (E1 & E2 & _ & E3 & E4 & _).
    rewrite lrun_app, (all_mods l _ []); [|exact N|reflexivity|reflexivity|exact E4].
    unfold ok at 1. rewrite andThen_ok. cbn [lrun app]. unfold logicalLineReceived.
    cbn [starts_with B list_byte_of_string p_mode set_dn set_mode set_mods]. unfold state_WAIT_FOR_MOD_SPEC.
    cbn [p_dn p_data p_mods set_dn set_mode set_mods]. rewrite R. cbn [with_res andThen].
    destruct s. cbn in E1, E2, E3, E4. subst. reflexivity.
  Qed.
End Read.
