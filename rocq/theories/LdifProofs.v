(** LDIF: base64, lines and chunks (C48), folding (C49), truncation (C50). *)
From Verif Require Import BaseFacts Utf8Model DnModel EntryModel UtilModel LdifModel LdifSpec.

(** ** base64 *)
Lemma b64_char_ok n : 0 <= n < 64 ->
  b64_val (b64_char n) = Some n /\ beqb (b64_char n) PAD = false.
Proof.
  intros H. unfold b64_val, b64_char, beqb, PAD.
  rewrite (b2z_z2b_small 61) by lia.
  rewrite b2z_z2b_small by (repeat match goal with |- context [if ?c then _ else _] => destruct c eqn:? end; lia).
  repeat match goal with |- context [if ?c then _ else _] => destruct c eqn:? end; split; try (f_equal; lia); lia.
Qed.
Lemma b64_char_line n : 0 <= n < 64 ->
  b2z (b64_char n) <> 10 /\ b2z (b64_char n) <> 32 /\ b2z (b64_char n) <> 13.
Proof.
  intros H. unfold b64_char.
  rewrite b2z_z2b_small by (repeat match goal with |- context [if ?c then _ else _] => destruct c eqn:? end; lia).
  repeat match goal with |- context [if ?c then _ else _] => destruct c eqn:? end; lia.
Qed.

Lemma dec_char n r q left pads : 0 <= n < 64 -> b64_decode_loop (b64_char n :: r) q left pads =
            if q =? 0 then b64_decode_loop r 1 n 0
            else if q =? 1 then do t <- b64_decode_loop r 2 (n mod 16) 0; Ok (z2b (left * 4 + n / 16) :: t)
            else if q =? 2 then do t <- b64_decode_loop r 3 (n mod 4) 0; Ok (z2b (left * 16 + n / 4) :: t)
            else do t <- b64_decode_loop r 0 0 0; Ok (z2b (left * 64 + n) :: t).
Proof. intros H. destruct (b64_char_ok n H) as (V & P). cbn [b64_decode_loop]. now rewrite P, V. Qed.

Lemma pad2 l : b64_decode_loop [PAD; PAD] 2 l 0 = Ok []. Proof. reflexivity. Qed.
Lemma pad1 l : b64_decode_loop [PAD] 3 l 0 = Ok []. Proof. reflexivity. Qed.

Ltac Zify.zify_post_hook ::= Z.to_euclidean_division_equations.
Lemma z2b_is b z : b2z b = z -> z2b z = b. Proof. intros <-. apply z2b_b2z. Qed.
Lemma b64_roundtrip_len n : forall s, (length s <= n)%nat -> b64_decode (b64_encode s) = Ok s.
Proof.
  unfold b64_decode. induction n as [|n IH]; intros [|a [|b [|c r]]] L; cbn [length] in L; try lia; try reflexivity;
    cbn [b64_encode]; pose proof (b2z_range a) as Ra; try pose proof (b2z_range b) as Rb; try pose proof (b2z_range c) as Rc;
    rewrite dec_char by lia; cbn [Z.eqb]; rewrite dec_char by lia; cbn [Z.eqb Pos.eqb].
  - rewrite pad2. cbn [bind]. f_equal. f_equal. apply z2b_is. lia.
  - rewrite dec_char by lia; cbn [Z.eqb Pos.eqb]. rewrite pad1. cbn [bind]. f_equal. f_equal; [|f_equal]; apply z2b_is; lia.
  - rewrite dec_char by lia; cbn [Z.eqb Pos.eqb]. rewrite dec_char by lia; cbn [Z.eqb Pos.eqb].
    rewrite IH by lia. cbn [bind]. f_equal. f_equal; [|f_equal; [|f_equal]]; apply z2b_is; lia.
Qed.
Lemma b64_roundtrip s : b64_decode (b64_encode s) = Ok s.
Proof. exact (b64_roundtrip_len (length s) s (le_n _)). Qed.

Lemma b64_line_len n : forall s, (length s <= n)%nat ->
  Forall (fun c => b2z c <> 10 /\ b2z c <> 32 /\ b2z c <> 13) (b64_encode s).
Proof.
  assert (P : b2z PAD <> 10 /\ b2z PAD <> 32 /\ b2z PAD <> 13) by (vm_compute; repeat split; discriminate).
  induction n as [|n IH]; intros [|a [|b [|c r]]] L; cbn [length] in L; try lia; cbn [b64_encode];
    try pose proof (b2z_range a) as Ra; try pose proof (b2z_range b) as Rb; try pose proof (b2z_range c) as Rc;
    repeat (apply Forall_cons; [first [exact P|apply b64_char_line; lia]|]); try apply Forall_nil.
  apply IH. lia.
Qed.
Lemma b64_line s : Forall (fun c => b2z c <> 10 /\ b2z c <> 32 /\ b2z c <> 13) (b64_encode s).
Proof. exact (b64_line_len (length s) s (le_n _)). Qed.
Ltac Zify.zify_post_hook ::= idtac.

(** ** Lines *)
(** The complete lines of a text, and what follows the last newline *)
Fixpoint cut (s : bytes) : list bytes * bytes :=
  match s with
  | [] => ([], [])
  | c :: r =>
      let (ls, rest) := cut r in
      if beqb c NL then ([] :: ls, rest)
      else match ls with [] => ([], c :: rest) | l :: ls' => ((c :: l) :: ls', rest) end
  end.

Lemma cut_split s : split1 NL s = match cut s with ([], _) => None | (l :: _, _) =>
    match split1 NL s with Some (_, r) => Some (l, r) | None => None end end /\
  match split1 NL s with None => cut s = ([], s)
  | Some (l, r) => cut s = (l :: fst (cut r), snd (cut r)) /\ (length r < length s)%nat /\ s = l ++ NL :: r end.
Proof.
  induction s as [|c s (IH1 & IH2)]; [split; reflexivity|]. cbn [split1 cut].
  destruct (beqb_spec c NL) as [->|Nc].
  - destruct (cut s) as (ls & rest); cbn. repeat split; lia.
  - destruct (split1 NL s) as [(l & r)|] eqn:E.
    + destruct IH2 as (-> & L & ->). cbn. repeat split; lia.
    + rewrite IH2. cbn. auto.
Qed.
Lemma split_none s : split1 NL s = None -> cut s = ([], s).
Proof. intros E. pose proof (cut_split s) as (_ & H). now rewrite E in H. Qed.
Lemma split_some s l r : split1 NL s = Some (l, r) ->
  cut s = (l :: fst (cut r), snd (cut r)) /\ (length r < length s)%nat /\ s = l ++ NL :: r.
Proof. intros E. pose proof (cut_split s) as (_ & H). now rewrite E in H. Qed.

Lemma cut_app a b : cut (a ++ b) =
  (fst (cut a) ++ fst (cut (snd (cut a) ++ b)), snd (cut (snd (cut a) ++ b))).
Proof.
  induction a as [|c a IH]; cbn [app cut fst snd].
  - now destruct (cut b).
  - rewrite IH. destruct (cut a) as (la & ra). cbn [fst snd].
    destruct (beqb c NL) eqn:E; [reflexivity|].
    destruct la as [|l la]; cbn [app fst snd].
    + destruct (cut (ra ++ b)) as ([|l ls] & rest) eqn:F; cbn [app cut fst snd]; now rewrite F, E.
    + reflexivity.
Qed.
Lemma without_nl s : without 10 s <-> ~ In NL s.
Proof.
  unfold without, NL. split.
  - intros H I. apply (H _ I). apply b2z_z2b_small. lia.
  - intros H b I E. apply H. rewrite (z2b_is b 10 E). exact I.
Qed.
Lemma cut_line l r : without 10 l -> cut (l ++ NL :: r) = (l :: fst (cut r), snd (cut r)).
Proof.
  intros H. apply without_nl in H. induction l as [|c l IH]; cbn [app cut].
  - rewrite (beqb_refl NL). now destruct (cut r).
  - rewrite IH by (intros I; apply H; now right).
    destruct (beqb_spec c NL) as [->|_]; [exfalso; apply H; now left|reflexivity].
Qed.
Lemma cut_rest l : without 10 l -> cut l = ([], l).
Proof.
  intros H. apply without_nl in H. induction l as [|c l IH]; cbn [cut]; [reflexivity|].
  rewrite IH by (intros I; apply H; now right).
  destruct (beqb_spec c NL) as [->|_]; [exfalso; apply H; now left|reflexivity].
Qed.
Lemma cut_join s : s = concat (map (fun l => l ++ [NL]) (fst (cut s))) ++ snd (cut s).
Proof.
  induction s as [|c s IH]; [reflexivity|]. cbn [cut]. destruct (cut s) as (ls & rest). cbn [fst snd] in IH.
  destruct (beqb_spec c NL) as [->|Nc]; cbn [fst snd map concat app].
  - now rewrite <- IH.
  - destruct ls as [|l ls]; cbn [fst snd map concat app] in *; now rewrite <- IH.
Qed.
Lemma cut_no_nl s : Forall (without 10) (fst (cut s)) /\ without 10 (snd (cut s)).
Proof.
  induction s as [|c s IH]; [split; [constructor|intros ? []]|]. cbn [cut]. destruct (cut s) as (ls & rest). cbn [fst snd] in IH.
  destruct IH as (F & W).
  destruct (beqb_spec c NL) as [->|Nc]; cbn [fst snd].
  - split; [constructor; [intros ? []|exact F]|exact W].
  - assert (C : b2z c <> 10) by (intros E; apply Nc; unfold NL; symmetry; now apply z2b_is).
    destruct ls as [|l ls]; cbn [fst snd].
    + split; [exact F|]. intros b [<-|I]; auto.
    + inversion F; subst. split; [constructor; [|assumption]|exact W]. intros b [<-|I]; auto.
Qed.

Section Parse.
  Variable lower : str -> str.
  Variable io : Z -> Z -> res Z.
  Variable vio : str -> res Z.
  Variable is_delta : bool.
  Notation lineReceived := (lineReceived lower io vio is_delta).
  Notation logicalLineReceived := (logicalLineReceived lower io vio is_delta).
  Notation recv_lines := (recv_lines lower io vio is_delta).
  Notation feed := (feed lower io vio is_delta).
  Notation parse := (parse lower io vio is_delta).

  (** Handling lines one after the other *)
  Fixpoint run (s : pstate) (ls : list bytes) : list record * res pstate :=
    match ls with
    | [] => ([], Ok s)
    | l :: r => if MAX_LENGTH <? zlen l then ([], Err EAttr) else andThen (lineReceived s l) (fun s => run s r)
    end.
  Lemma andThen_assoc x f g : andThen (andThen x f) g = andThen x (fun s => andThen (f s) g).
  Proof.
    destruct x as (o & [s|e]); cbn; [|reflexivity].
    destruct (f s) as (o' & [s'|e']); cbn; [|reflexivity].
    destruct (g s') as (o2 & r). now rewrite app_assoc.
  Qed.
  Lemma andThen_ok s f : andThen ([], Ok s) f = f s.
  Proof. cbn. now destruct (f s). Qed.
  Lemma andThen_ext x f g : (forall s, f s = g s) -> andThen x f = andThen x g.
  Proof. intros H. destruct x as (o & [s|e]); cbn; [now rewrite H|reflexivity]. Qed.
  Lemma run_app a : forall s b, run s (a ++ b) = andThen (run s a) (fun s => run s b).
  Proof.
    induction a as [|l a IH]; intros s b; cbn [app run].
    - now rewrite andThen_ok.
    - destruct (MAX_LENGTH <? zlen l); [reflexivity|].
      rewrite andThen_assoc. apply andThen_ext. intros s'. apply IH.
  Qed.

  Definition process (buf : bytes) (s : pstate) : list record * res (bytes * pstate) :=
    match run s (fst (cut buf)) with
    | (o, Err e) => (o, Err e)
    | (o, Ok s') => if MAX_LENGTH + 1 <=? zlen (snd (cut buf)) then (o, Err EAttr) else (o, Ok (snd (cut buf), s'))
    end.
  Lemma recv_process n : forall buf s, (length buf < n)%nat -> recv_lines n buf s = process buf s.
  Proof.
    induction n as [|n IH]; intros buf s L; [lia|]. cbn [LdifModel.recv_lines]. unfold process.
    destruct buf as [|c b]; [reflexivity|]. set (buf := c :: b) in *. clearbody buf.
    destruct (split1 NL buf) as [(l & r)|] eqn:E.
    - destruct (split_some _ _ _ E) as (C & L2 & _). rewrite C. cbn [fst snd run].
      destruct (MAX_LENGTH <? zlen l); [reflexivity|].
      destruct (lineReceived s l) as (o & [s'|e]); cbn [andThen]; [|reflexivity].
      rewrite IH by lia. unfold process.
      destruct (run s' (fst (cut r))) as (o' & [s2|e2]); cbn; [|reflexivity].
      now destruct (MAX_LENGTH + 1 <=? zlen (snd (cut r))).
    - rewrite (split_none _ E). cbn [fst snd run]. now destruct (MAX_LENGTH + 1 <=? zlen buf).
  Qed.
  Lemma data_process c d : dataReceived lower io vio is_delta c d = process (fst c ++ d) (snd c).
  Proof. unfold dataReceived. apply recv_process. lia. Qed.

  Lemma process_app b d s : process (b ++ d) s =
    match process b s with
    | (o, Err e) => (o, Err e)
    | (o, Ok (rest, s')) => let (o', x) := process (rest ++ d) s' in (o ++ o', x)
    end.
  Proof.
    unfold process. rewrite (cut_app b d). cbn [fst snd]. rewrite run_app.
    destruct (run s (fst (cut b))) as (o & [s'|e]); cbn [andThen]; [|reflexivity].
    set (ra := snd (cut b)).
    destruct (MAX_LENGTH + 1 <=? zlen ra) eqn:M.
    - pose proof (cut_no_nl b) as (_ & W). fold ra in W.
      assert (Z1 : MAX_LENGTH < zlen ra) by lia.
      assert (G : run s' (fst (cut (ra ++ d))) = ([], Err EAttr) \/
                  (fst (cut (ra ++ d)) = [] /\ (MAX_LENGTH + 1 <=? zlen (snd (cut (ra ++ d)))) = true)).
      { rewrite (cut_app ra d), (cut_rest ra W). cbn [fst snd app].
        destruct (split1 NL d) as [(l & r)|] eqn:E.
        - left. destruct (split_some _ _ _ E) as (C & _ & ->). rewrite app_assoc.
          rewrite cut_line.
          + cbn [fst run]. destruct (MAX_LENGTH <? zlen (ra ++ l)) eqn:K; [reflexivity|].
            rewrite zlen_app in K. pose proof (zlen_nonneg l). lia.
          + pose proof (cut_no_nl (l ++ NL :: r)) as (F & _). rewrite C in F. cbn in F. inversion F; subst.
            intros x I. apply in_app_or in I as [I|I]; auto.
        - right. rewrite (cut_app ra d), (cut_rest ra W). cbn [fst snd app].
          assert (W2 : without 10 (ra ++ d)).
          { pose proof (cut_no_nl d) as (_ & W2). rewrite (split_none _ E) in W2. cbn in W2.
            intros x I. apply in_app_or in I as [I|I]; auto. }
          rewrite (cut_rest _ W2). cbn [fst snd]. split; [reflexivity|]. rewrite zlen_app. pose proof (zlen_nonneg d). lia. }
      destruct G as [->|(-> & K)]; cbn; rewrite ?app_nil_r; [reflexivity|]. now rewrite K.
    - destruct (run s' (fst (cut (ra ++ d)))) as (o' & [s2|e2]); cbn; [|reflexivity].
      now destruct (MAX_LENGTH + 1 <=? zlen (snd (cut (ra ++ d)))).
  Qed.

  Definition clean (c : bytes * pstate) : Prop := without 10 (fst c) /\ zlen (fst c) <= MAX_LENGTH.
  Lemma process_clean b s o c : process b s = (o, Ok c) -> clean c.
  Proof.
    unfold process. destruct (run s (fst (cut b))) as (o' & [s'|e]); [|discriminate].
    destruct (MAX_LENGTH + 1 <=? zlen (snd (cut b))) eqn:E; [discriminate|]. intros [= _ <-].
    split; cbn; [apply cut_no_nl|lia].
  Qed.
  Lemma process_idle c : clean c -> process (fst c) (snd c) = ([], Ok c).
  Proof.
    intros (W & L). unfold process. rewrite (cut_rest _ W). cbn [fst snd run].
    destruct (MAX_LENGTH + 1 <=? zlen (fst c)) eqn:E; [lia|]. now destruct c.
  Qed.
  Lemma feed_process chunks : forall c, clean c -> feed c chunks = process (fst c ++ concat chunks) (snd c).
  Proof.
    induction chunks as [|d r IH]; intros c C; cbn [LdifModel.feed concat].
    - rewrite app_nil_r. symmetry. now apply process_idle.
    - rewrite data_process, app_assoc, (process_app (fst c ++ d) (concat r)).
      destruct (process (fst c ++ d) (snd c)) as (o & [c'|e]) eqn:P; [|reflexivity].
      rewrite IH by (eapply process_clean; eauto). now destruct c'.
  Qed.

  (** What the parser makes of a whole text *)
  Definition parse_text (t : bytes) : list record * res unit :=
    match process t p0 with
    | (o, Err e) => (o, Err e)
    | (o, Ok c) => (o, connectionLost (snd c))
    end.
  Lemma parse_is chunks : parse chunks = parse_text (concat chunks).
  Proof.
    unfold LdifModel.parse, parse_text. rewrite feed_process; [reflexivity|].
    split; cbn; [intros ? []|]. rewrite zlen_nil. unfold MAX_LENGTH. lia.
  Qed.

  (** C48 *)
  Lemma chunks_irrelevant a b : concat a = concat b -> parse a = parse b.
  Proof. intros E. now rewrite !parse_is, E. Qed.

  (** ** Folding *)
  Lemma fold_run s a b : a <> [] -> zlen (a ++ b) <= MAX_LENGTH -> run s [a; SP :: b] = run s [a ++ b].
  Proof.
    intros N L. rewrite zlen_app in L. pose proof (zlen_nonneg b) as Zb.
    assert (1 <= zlen a) by (destruct a; [congruence|rewrite zlen_cons; pose proof (zlen_nonneg a); lia]).
    cbn [run]. replace (MAX_LENGTH <? zlen a) with false by lia.
    replace (MAX_LENGTH <? zlen (a ++ b)) with false by (rewrite zlen_app; lia).
    replace (MAX_LENGTH <? zlen (SP :: b)) with false by (rewrite zlen_cons; lia).
    destruct a as [|c a]; [congruence|].
    unfold LdifModel.lineReceived. cbn [starts_with app]. rewrite andb_true_r, (beqb_refl SP).
    destruct (beqb SP c) eqn:Ec; cbn [andb tl].
    - destruct (p_last s) as [l|]; [|reflexivity]. unfold ok. rewrite !andThen_ok. cbn [p_last set_last]. rewrite !andThen_ok.
      unfold set_last. cbn. now rewrite app_assoc.
    - rewrite !andThen_assoc. apply andThen_ext. intros s'. unfold ok. rewrite !andThen_ok. cbn [p_last set_last]. now rewrite !andThen_ok.
  Qed.
  Lemma cut_pre pre : pre = [] \/ (exists p, pre = p ++ [NL]) -> snd (cut pre) = [].
  Proof.
    intros [->|(p & ->)]; [reflexivity|]. rewrite cut_app. cbn [snd].
    rewrite cut_line by apply cut_no_nl. reflexivity.
  Qed.
  Lemma cut_after pre t : pre = [] \/ (exists p, pre = p ++ [NL]) ->
    cut (pre ++ t) = (fst (cut pre) ++ fst (cut t), snd (cut t)).
  Proof. intros P. rewrite cut_app, (cut_pre pre P). reflexivity. Qed.
  Lemma fold1_parse t u : fold1 t u -> parse_text t = parse_text u.
  Proof.
    intros [pre a b post P N Wa Wb L]. unfold parse_text, process.
    assert (Wab : without 10 (a ++ b)) by (intros x I; apply in_app_or in I as [I|I]; auto).
    assert (Wsb : without 10 (SP :: b)).
    { intros x [<-|I]; [|auto]. unfold SP. rewrite b2z_z2b_small by lia. lia. }
    change (z2b 10) with NL in *. change (z2b 32) with SP in *.
    rewrite !(cut_after pre _ P). cbn [fst snd].
    replace (cut (a ++ b ++ [NL] ++ post)) with (cut ((a ++ b) ++ NL :: post)) by (now rewrite <- app_assoc).
    replace (cut (a ++ [NL; SP] ++ b ++ [NL] ++ post)) with (cut (a ++ NL :: (SP :: b) ++ NL :: post)) by reflexivity.
    rewrite (cut_line (a ++ b)), (cut_line a), (cut_line (SP :: b)) by assumption. cbn [fst snd].
    assert (R : run p0 (fst (cut pre) ++ a :: (SP :: b) :: fst (cut post)) = run p0 (fst (cut pre) ++ (a ++ b) :: fst (cut post))).
    { rewrite !run_app. apply andThen_ext. intros s.
      change (a :: (SP :: b) :: fst (cut post)) with ([a; SP :: b] ++ fst (cut post)).
      change ((a ++ b) :: fst (cut post)) with ([a ++ b] ++ fst (cut post)).
      rewrite !run_app, fold_run; [reflexivity|exact N|exact L]. }
    unfold bytes in *. now rewrite R.
  Qed.
  (** C49 *)
  Lemma folds_parse t u : folds t u -> parse [t] = parse [u].
  Proof.
    intros F. rewrite !parse_is. cbn [concat]. rewrite !app_nil_r.
    induction F as [t|t u v F1 F IH]; [reflexivity|]. rewrite (fold1_parse _ _ F1). exact IH.
  Qed.

  (** ** Truncation *)
  Lemma run_prefix s a b : exists r, fst (run s (a ++ b)) = fst (run s a) ++ r.
  Proof.
    rewrite run_app. destruct (run s a) as (o & [s'|e]); cbn; [|exists []; now rewrite app_nil_r].
    destruct (run s' b) as (o' & r'). exists o'. reflexivity.
  Qed.
  Lemma parse_fst t : fst (parse_text t) = fst (process t p0).
  Proof. unfold parse_text. now destruct (process t p0) as (o & [c|e]). Qed.
  Lemma prefix_events p q : exists r, fst (parse [p ++ q]) = fst (parse [p]) ++ r.
  Proof.
    rewrite !parse_is. cbn [concat]. rewrite !app_nil_r, !parse_fst, process_app.
    destruct (process p p0) as (o & [(rest & s')|e]); cbn; [|exists []; now rewrite app_nil_r].
    destruct (process (rest ++ q) s') as (o' & x). exists o'. reflexivity.
  Qed.

  (** Modes inside a record *)
  Definition inside (s : pstate) : bool := match p_mode s with HEADER | WAIT_FOR_DN => false | _ => true end.
  Definition holds_after (P : pstate -> Prop) (x : out) : Prop := match snd x with Ok s => P s | Err _ => True end.
  Ltac step := unfold with_res, ok, LdifModel.fail; cbn [fst snd];
    repeat match goal with |- holds_after _ ?t =>
      match t with
      | context [match ?x with _ => _ end] =>
          match x with context [match _ with _ => _ end] => fail 1 | _ => destruct x eqn:?; try discriminate end
      end end; unfold holds_after; cbn [fst snd]; auto.
  Lemma logical_inside s l : inside s = true -> l <> [] -> holds_after (fun s' => inside s' = true) (logicalLineReceived s l).
  Proof.
    intros I N. unfold LdifModel.logicalLineReceived. destruct (starts_with (B "#") l); [exact I|].
    unfold inside in *. destruct (p_mode s) eqn:M; try discriminate; destruct l as [|c l]; try congruence;
      unfold state_IN_ENTRY, state_WAIT_FOR_CHANGETYPE, state_WAIT_FOR_MOD_SPEC, state_IN_MOD_SPEC, state_IN_ADD_ENTRY, state_IN_DELETE;
      step; cbn; rewrite ?M; auto.
  Qed.
  Lemma logical_last s l : holds_after (fun s' => p_last s' = p_last s) (logicalLineReceived s l).
  Proof.
    unfold LdifModel.logicalLineReceived. destruct (starts_with (B "#") l); [reflexivity|].
    destruct (p_mode s) eqn:M;
      unfold state_HEADER, state_WAIT_FOR_DN, state_IN_ENTRY, state_WAIT_FOR_CHANGETYPE, state_WAIT_FOR_MOD_SPEC, state_IN_MOD_SPEC, state_IN_ADD_ENTRY, state_IN_DELETE;
      step.
  Qed.
  Lemma logical_blank s : holds_after (fun s' => p_mode s' = WAIT_FOR_DN) (logicalLineReceived s []).
  Proof.
    unfold LdifModel.logicalLineReceived. cbn [starts_with B list_byte_of_string].
    destruct (p_mode s) eqn:M;
      unfold state_HEADER, state_WAIT_FOR_DN, state_IN_ENTRY, state_WAIT_FOR_CHANGETYPE, state_WAIT_FOR_MOD_SPEC, state_IN_MOD_SPEC, state_IN_ADD_ENTRY, state_IN_DELETE;
      cbn; step.
  Qed.
  Lemma holds_andThen P Q x f : holds_after P x -> (forall s, P s -> holds_after Q (f s)) -> holds_after Q (andThen x f).
  Proof.
    unfold holds_after. destruct x as (o & [s|e]); cbn; [|auto]. intros H F. specialize (F s H).
    destruct (f s) as (o' & r). exact F.
  Qed.
  Lemma holds_imp (P Q : pstate -> Prop) x : (forall s, P s -> Q s) -> holds_after P x -> holds_after Q x.
  Proof. unfold holds_after. destruct (snd x); auto. Qed.

  (** Inside a record, with a line kept back that is not empty *)
  Definition deep (s : pstate) : Prop := inside s = true /\ exists l, p_last s = Some l /\ l <> [].
  Lemma line_deep s l : deep s -> l <> [] -> holds_after deep (lineReceived s l).
  Proof.
    intros (I & l0 & E & N0) N. unfold LdifModel.lineReceived. destruct (starts_with [SP] l).
    - rewrite E. unfold holds_after. cbn. split; [exact I|]. exists (l0 ++ tl l). split; [reflexivity|]. destruct l0; [congruence|discriminate].
    - rewrite E. eapply holds_andThen; [apply logical_inside; [exact I|exact N0]|].
      intros s' I'. destruct l as [|c l]; [congruence|]. split; [exact I'|]. exists (c :: l). split; [reflexivity|discriminate].
  Qed.
  Lemma run_deep ls : forall s, deep s -> Forall (fun l => l <> []) ls -> holds_after deep (run s ls).
  Proof.
    induction ls as [|l ls IH]; intros s D F; cbn [run]; [exact D|]. inversion F as [|? ? N F']; subst.
    destruct (MAX_LENGTH <? zlen l); [exact Logic.I|].
    eapply holds_andThen; [apply line_deep; eassumption|]. intros s' D'. now apply IH.
  Qed.

  (** At the start of a record *)
  Definition idle (s : pstate) : Prop := p_last s = None /\ inside s = false.
  Lemma line_blank s : holds_after idle (lineReceived s []).
  Proof.
    unfold LdifModel.lineReceived. cbn [starts_with].
    eapply holds_andThen with (P := fun _ => True).
    { unfold holds_after. destruct (snd _); exact Logic.I. }
    intros s' _. eapply holds_andThen; [apply logical_blank|].
    intros s2 E. split; [reflexivity|]. unfold inside. cbn. now rewrite E.
  Qed.
  Lemma dn_line_inside s l : inside s = false -> starts_with (B "#") l = false -> l <> [] ->
    starts_with (B "version:") l = false ->
    holds_after (fun s' => inside s' = true) (logicalLineReceived s l).
  Proof.
    intros I C N V. unfold LdifModel.logicalLineReceived. rewrite C. unfold inside in *.
    assert (W : forall s, holds_after (fun s' => match p_mode s' with HEADER | WAIT_FOR_DN => false | _ => true end = true)
                            (state_WAIT_FOR_DN is_delta s l)).
    { intros s'. unfold state_WAIT_FOR_DN. destruct l as [|c l]; [congruence|]. step; cbn; now destruct is_delta. }
    destruct (p_mode s) eqn:M; try discriminate.
    - unfold state_HEADER, parseLine. destruct (split1 COLON l) as [(k & v)|] eqn:E; [|exact Logic.I].
      destruct (parseValue v) as [v'|]; [|exact Logic.I]. cbn [with_res bind fst snd].
      destruct (bytes_eqb_spec k (B "version")) as [->|_].
      + exfalso. assert (X : l = B "version" ++ COLON :: v).
        { clear - E. revert l E. generalize (B "version") as k. induction k as [|x k IH]; intros [|y l] E; cbn [split1] in E; try discriminate.
          - destruct (beqb_spec y COLON) as [->|]; [now injection E as ->|]. destruct (split1 COLON l) as [(? & ?)|]; discriminate.
          - destruct (beqb y COLON); [discriminate|]. destruct (split1 COLON l) as [(k' & v')|] eqn:E'; [|discriminate].
            injection E as -> -> ->. cbn. f_equal. now apply IH. }
        rewrite X in V. vm_compute in V. discriminate.
      + cbn [negb]. apply W.
    - apply W.
  Qed.

  (** C50: a text cut inside a record, after the line of its DN and one more line *)
  Lemma cut_blank_run pre s : (exists p, pre = p ++ [NL; NL]) -> holds_after idle (run s (fst (cut pre))).
  Proof.
    intros (p & ->). replace (p ++ [NL; NL]) with ((p ++ [NL]) ++ [NL]) by (now rewrite <- app_assoc).
    rewrite cut_after by (right; now exists p). cbn [fst]. rewrite run_app.
    eapply holds_andThen with (P := fun _ => True).
    { unfold holds_after. destruct (snd _); exact Logic.I. }
    intros s' _. change [NL] with ([] ++ NL :: []). rewrite cut_line by (intros ? []). cbn [fst cut run].
    destruct (MAX_LENGTH <? zlen []); [exact Logic.I|]. eapply holds_andThen; [apply line_blank|]. intros s2 D. exact D.
  Qed.
  Lemma no_blank_lines t : no_blank t -> Forall (fun l => l <> []) (fst (cut t)).
  Proof.
    intros (H1 & H2). rewrite Forall_forall. intros l I ->. apply in_split in I as (l1 & l2 & E).
    pose proof (cut_join t) as J. rewrite E, map_app, concat_app in J. cbn [map concat app] in J.
    destruct l1 as [|x l1] using rev_ind.
    - cbn in J. apply (H1 NL (concat (map (fun l => l ++ [NL]) l2) ++ snd (cut t))); [exact J|]. apply b2z_z2b_small. lia.
    - clear IHl1. rewrite map_app, concat_app in J. cbn [map concat app] in J. rewrite app_nil_r in J.
      apply (H2 (concat (map (fun l => l ++ [NL]) l1) ++ x) (concat (map (fun l => l ++ [NL]) l2) ++ snd (cut t))).
      clear E. revert J. generalize (snd (cut t)) as z. intros z ->. repeat rewrite <- app_assoc. reflexivity.
  Qed.
  Lemma truncated pre l1 l2 rest :
    pre = [] \/ (exists p, pre = p ++ [NL; NL]) ->
    l1 <> [] -> without 10 l1 -> starts_with (B "#") l1 = false -> starts_with (B " ") l1 = false -> starts_with (B "version:") l1 = false ->
    l2 <> [] -> without 10 l2 -> starts_with (B " ") l2 = false ->
    no_blank rest ->
    exists e, snd (parse [pre ++ l1 ++ [NL] ++ l2 ++ [NL] ++ rest]) = Err e.
  Proof.
    intros P N1 W1 C1 S1 V1 N2 W2 S2 R. rewrite parse_is. cbn [concat]. rewrite app_nil_r.
    unfold parse_text, process.
    assert (P' : pre = [] \/ exists p, pre = p ++ [NL]).
    { destruct P as [->|(p & ->)]; [now left|right]. exists (p ++ [NL]). now rewrite <- app_assoc. }
    rewrite (cut_after pre _ P'). cbn [fst snd].
    replace (l1 ++ [NL] ++ l2 ++ [NL] ++ rest) with (l1 ++ NL :: l2 ++ NL :: rest) by reflexivity.
    rewrite !cut_line by assumption. cbn [fst snd].
    assert (D : holds_after deep (run p0 (fst (cut pre) ++ l1 :: l2 :: fst (cut rest)))).
    { rewrite run_app. eapply holds_andThen with (P := idle).
      { destruct P as [->|P]; [split; reflexivity|]. now apply cut_blank_run. }
      intros s Is. cbn [run].
      destruct (MAX_LENGTH <? zlen l1); [exact Logic.I|].
      change (B " ") with [SP] in *.
      assert (E1 : lineReceived s l1 = ([], Ok (set_last (Some l1) s))).
      { unfold LdifModel.lineReceived. rewrite S1. destruct Is as (-> & _). unfold ok. rewrite andThen_ok.
        destruct l1; [congruence|reflexivity]. }
      rewrite E1, andThen_ok. destruct (MAX_LENGTH <? zlen l2); [exact Logic.I|].
      eapply holds_andThen with (P := deep).
      2:{ intros s' D'. apply run_deep; [exact D'|]. now apply no_blank_lines. }
      unfold LdifModel.lineReceived. rewrite S2. cbn [p_last set_last].
      eapply holds_andThen.
      { apply dn_line_inside; [|exact C1|exact N1|exact V1]. exact (proj2 Is). }
      intros s' I'. destruct l2 as [|c l2]; [congruence|]. split; [exact I'|]. exists (c :: l2). split; [reflexivity|discriminate]. }
    match goal with |- context [run p0 ?x] =>
      change (holds_after deep (run p0 x)) in D; destruct (run p0 x) as (o & [s|e]) end; cbn in D; cbn [snd]; [|eauto].
    destruct (MAX_LENGTH + 1 <=? zlen (snd (cut rest))); cbn [snd]; [eauto|].
    destruct D as (I & _). unfold inside in I. unfold connectionLost. destruct (p_mode s); try discriminate; eauto.
  Qed.
  Lemma truncated_error p q e : snd (parse [p]) = Err e -> snd (parse [p ++ q]) = Ok tt -> e = ETruncated.
  Proof.
    rewrite !parse_is. cbn [concat]. rewrite !app_nil_r. unfold parse_text. rewrite process_app.
    destruct (process p p0) as (o & [(rest & s)|e']); cbn; [|discriminate].
    intros H _. unfold connectionLost in H. destruct (p_mode s); congruence.
  Qed.
End Parse.
