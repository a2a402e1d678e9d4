(** How the lines of PdnsModel are read. *)
From Verif Require Import Base BaseFacts Utf8Model DnModel EntryModel FilterTextModel LdifTreeModel UtilModel UtilProofs ToolsModel PdnsModel PdnsSpec.

(** A false equation of literals *)
Ltac lits := match goal with X : S_ _ = S_ _ |- _ => exfalso; revert X; vm_compute; discriminate end.
Lemma cut_at (c : Z) (s : str) : ~ In c s \/ exists t r, s = t ++ c :: r /\ ~ In c t.
Proof.
  induction s as [|x s IH]; [left; intros []|]. destruct (Z.eq_dec x c) as [->|N].
  - right. exists [], s. split; [reflexivity|intros []].
  - destruct IH as [IH|(t & r & -> & H)].
    + left. intros [E|J]; [congruence|auto].
    + right. exists (x :: t), r. split; [reflexivity|]. intros [E|J]; [congruence|auto].
Qed.
Lemma split_none c m s : ~ In c s -> split_n c m s = [s].
Proof.
  destruct m as [|m]; [reflexivity|]. cbn [split_n]. induction s as [|x s IH]; intros N; [reflexivity|].
  destruct (Z.eqb_spec x c) as [->|_]; [destruct N; now left|]. rewrite IH; [reflexivity|]. intros J. apply N. now right.
Qed.
Lemma split_some c m t r : ~ In c t -> split_n c (S m) (t ++ c :: r) = t :: split_n c m r.
Proof.
  intros N. cbn [split_n]. induction t as [|x t IH]; [cbn [app]; now rewrite Z.eqb_refl|].
  cbn [app]. destruct (Z.eqb_spec x c) as [->|_]; [destruct N; now left|]. rewrite IH; [reflexivity|]. intros J. apply N. now right.
Qed.
Lemma one_cut (c : Z) (t r t' r' : str) : ~ In c t -> ~ In c t' -> t ++ c :: r = t' ++ c :: r' -> t = t' /\ r = r'.
Proof.
  revert t'. induction t as [|x t IH]; intros [|y t'] N N' E; cbn in E.
  - now injection E.
  - injection E as -> _. destruct N'. now left.
  - injection E as -> _. destruct N. now left.
  - injection E as -> E. destruct (IH t') as (-> & ->); auto; intros J; [apply N|apply N']; now right.
Qed.
Lemma no_cut (c : Z) (t t' r : str) : ~ In c t -> t <> t' ++ c :: r.
Proof. intros N ->. apply N. apply in_or_app. right. now left. Qed.

Lemma str_eqb_spec a b : reflect (a = b) (str_eqb a b).
Proof. destruct (str_eqb a b) eqn:E; constructor; [now apply str_eqb_eq|]. intros ->. assert (str_eqb b b = true) by now apply str_eqb_eq. congruence. Qed.

Lemma ends t s : endswith t s = true <-> exists h, s = h ++ t.
Proof.
  unfold endswith. rewrite andb_true_iff, str_eqb_eq, Nat.leb_le. split.
  - intros (E & L). exists (firstn (length s - length t) s). rewrite <- E at 2. now rewrite firstn_skipn.
  - intros (h & ->). rewrite app_length. replace (length h + length t - length t)%nat with (length h) by lia.
    split; [|lia]. rewrite skipn_app, skipn_all, Nat.sub_diag. reflexivity.
Qed.
Lemma not_ends t s : endswith t s = false <-> forall h, s <> h ++ t.
Proof.
  split.
  - intros E h ->. assert (endswith t (h ++ t) = true) by (apply ends; eauto). congruence.
  - intros N. destruct (endswith t s) eqn:E; [|reflexivity]. apply ends in E as (h & ->). now destruct (N h).
Qed.
Lemma cut_ends t h : cut_end t (h ++ t) = h.
Proof. unfold cut_end. rewrite app_length. replace (length h + length t - length t)%nat with (length h) by lia. rewrite firstn_app, firstn_all, Nat.sub_diag. cbn. apply app_nil_r. Qed.

Lemma dots_back s : join_dots (split_dots s) = s /\ Forall (fun x => ~ In 46 x) (split_dots s) /\ split_dots s <> [].
Proof.
  induction s as [|c s (J & F & N)]; [cbn; repeat split; auto; discriminate|]. cbn [split_dots]. destruct (Z.eqb_spec c 46) as [->|Nc].
  - repeat split; [|constructor; [intros []|exact F]|discriminate]. destruct (split_dots s) as [|p ps]; [congruence|]. cbn [join_dots app]. f_equal. exact J.
  - destruct (split_dots s) as [|p ps]; [congruence|]. inversion F; subst. repeat split; [|constructor; [intros [E|I]; [congruence|auto]|auto]|discriminate].
    destruct ps; cbn [join_dots app] in *; congruence.
Qed.
Lemma four_dots s a b c d : split_dots s = [a; b; c; d] -> s = a ++ S_ "." ++ b ++ S_ "." ++ c ++ S_ "." ++ d /\ no_dots a /\ no_dots b /\ no_dots c /\ no_dots d.
Proof.
  intros E. destruct (dots_back s) as (J & F & _). rewrite E in J, F. inversion F as [|? ? Fa F1]; subst. inversion F1 as [|? ? Fb F2]; subst. inversion F2 as [|? ? Fc F3]; subst. inversion F3; subst.
  repeat split; auto.
Qed.

Section Text.
  Variables (domain argv0 : str) (repr : str -> str).
  Notation immediate := (immediate domain argv0 repr).
  Notation handle := (handle domain argv0 repr).
  Notation main_Q := (main_Q domain repr).

  (** The five parts of a question, or fewer than four tabs *)
  Lemma five rest : (exists a b c d e, rest = a ++ 9 :: b ++ 9 :: c ++ 9 :: d ++ 9 :: e /\ no_tabs a /\ no_tabs b /\ no_tabs c /\ no_tabs d /\ split_n 9 4 rest = [a; b; c; d; e]) \/
    (~ four_tabs rest /\ (length (split_n 9 4 rest) < 5)%nat).
  Proof.
    assert (X : forall s, ~ In 9 s -> forall a r, s <> a ++ TAB ++ r) by (intros s N a r ->; apply N, in_or_app; right; now left).
    (* in a text with four tabs, cut at the first tab, three are left *)
    assert (Z1 : forall t r : str, ~ In 9 t -> (forall a r', t ++ 9 :: r = a ++ TAB ++ r' -> exists a', r = a' ++ TAB ++ r' \/ (r = r' /\ a = t))).
    { intros t r N a r' E. destruct (cut_at 9 a) as [Na|(u & v & -> & Nu)].
      - destruct (one_cut 9 t r a r' N Na E) as (-> & ->). exists []. right. auto.
      - rewrite <- app_assoc in E. cbn [app] in E. destruct (one_cut 9 t r u _ N Nu E) as (-> & ->). exists v. now left. }
    destruct (cut_at 9 rest) as [N|(a & r & -> & Na)].
    { right. split; [intros (a & b & c & d & e & E); exact (X _ N _ _ E)|]. rewrite split_none by exact N. cbn. lia. }
    rewrite split_some by exact Na.
    assert (T1 : four_tabs (a ++ 9 :: r) -> exists b c d e, r = b ++ TAB ++ c ++ TAB ++ d ++ TAB ++ e).
    { intros (a' & b & c & d & e & E). destruct (Z1 a r Na _ _ E) as (u & [H|(H & _)]).
      - exists (u ++ TAB ++ b), c, d, e. rewrite H. now rewrite <- !app_assoc.
      - exists b, c, d, e. exact H. }
    destruct (cut_at 9 r) as [N|(b & r2 & -> & Nb)].
    { right. split; [intros T; destruct (T1 T) as (b & c & d & e & E); exact (X _ N _ _ E)|]. rewrite split_none by exact N. cbn. lia. }
    rewrite split_some by exact Nb.
    assert (T2 : four_tabs (a ++ 9 :: b ++ 9 :: r2) -> exists c d e, r2 = c ++ TAB ++ d ++ TAB ++ e).
    { intros T. destruct (T1 T) as (b' & c & d & e & E). destruct (Z1 b r2 Nb _ _ E) as (u & [H|(H & _)]).
      - exists (u ++ TAB ++ c), d, e. rewrite H. now rewrite <- !app_assoc.
      - exists c, d, e. exact H. }
    destruct (cut_at 9 r2) as [N|(c & r3 & -> & Nc)].
    { right. split; [intros T; destruct (T2 T) as (c & d & e & E); exact (X _ N _ _ E)|]. rewrite split_none by exact N. cbn. lia. }
    rewrite split_some by exact Nc.
    assert (T3 : four_tabs (a ++ 9 :: b ++ 9 :: c ++ 9 :: r3) -> exists d e, r3 = d ++ TAB ++ e).
    { intros T. destruct (T2 T) as (c' & d & e & E). destruct (Z1 c r3 Nc _ _ E) as (u & [H|(H & _)]).
      - exists (u ++ TAB ++ d), e. rewrite H. now rewrite <- !app_assoc.
      - exists d, e. exact H. }
    destruct (cut_at 9 r3) as [N|(d & r4 & -> & Nd)].
    { right. split; [intros T; destruct (T3 T) as (d & e & E); exact (X _ N _ _ E)|]. rewrite split_none by exact N. cbn. lia. }
    rewrite split_some by exact Nd. left. exists a, b, c, d, r4. repeat split; auto.
  Qed.
  Lemma command_one line t r t' r' : command line t r -> command line t' r' -> t = t' /\ r = r'.
  Proof.
    unfold command, TAB, no_tabs. cbn [app]. intros (N & H) (N' & H').
    destruct H as [E|(E & ->)], H' as [E'|(E' & ->)].
    - apply one_cut with (c := 9); auto. now rewrite <- E, <- E'.
    - exfalso. apply (no_cut 9 t' t r N'). now rewrite <- E, <- E'.
    - exfalso. apply (no_cut 9 t t' r' N). now rewrite <- E, <- E'.
    - split; [congruence|reflexivity].
  Qed.
  Lemma question_command line a b c : question_line line a b c -> exists ident ip, command line (S_ "Q") (a ++ 9 :: b ++ 9 :: c ++ 9 :: ident ++ 9 :: ip) /\ no_tabs a /\ no_tabs b /\ no_tabs c /\ no_tabs ident.
  Proof.
    intros (ident & ip & A & Bb & C & D & ->). exists ident, ip. split; [|auto]. split; [intros [E|[]]; discriminate|]. left. reflexivity.
  Qed.
  Lemma question_one line a b c a' b' c' : question_line line a b c -> question_line line a' b' c' -> a = a' /\ b = b' /\ c = c'.
  Proof.
    intros H H'. destruct (question_command _ _ _ _ H) as (i & p & K & A & Bb & C & D). destruct (question_command _ _ _ _ H') as (i' & p' & K' & A' & B' & C' & D').
    destruct (command_one _ _ _ _ _ K K') as (_ & E). destruct (one_cut 9 _ _ _ _ A A' E) as (-> & E1). destruct (one_cut 9 _ _ _ _ Bb B' E1) as (-> & E2). now destruct (one_cut 9 _ _ _ _ C C' E2) as (-> & _).
  Qed.
  (** What a question for IN comes to *)
  Definition by_type (qname qtype : str) : reply :=
    if str_eqb qtype (S_ "A") then question_A domain qname (S_ "IN")
    else if str_eqb qtype (S_ "ANY") then question_ANY domain qname (S_ "IN")
    else if str_eqb qtype (S_ "PTR") then question_PTR qname (S_ "IN")
    else Now [S_ "END"].
  Lemma arpa_text h a : (h ++ S_ ".") ++ a ++ S_ ".in-addr.arpa" = h ++ S_ "." ++ a ++ arpa. Proof. now rewrite <- app_assoc. Qed.
  Lemma ptr_asks line qname qtype q : question_line line qname (S_ "IN") qtype -> (qtype = S_ "PTR" \/ qtype = S_ "ANY") ->
    question_PTR qname (S_ "IN") = Ask q -> asks domain line q.
  Proof.
    intros H T. unfold question_PTR. destruct (endswith _ qname) eqn:E; [|discriminate]. apply ends in E as (h & ->). cbn [negb]. rewrite cut_ends.
    destruct (split_dots h) as [|d [|c [|b [|a [|]]]]] eqn:Eh; try discriminate. cbn [length Nat.eqb negb rev app]. intros [= <-].
    destruct (four_dots h d c b a Eh) as (-> & Hd & Hc & Hb & Ha). apply (asks_PTR domain line _ qtype a b c d); auto.
    now rewrite <- !app_assoc.
  Qed.
  Lemma ptr_now line qname qtype ls : question_line line qname (S_ "IN") qtype -> (qtype = S_ "PTR" \/ (qtype = S_ "ANY" /\ endswith arpa qname = true)) ->
    question_PTR qname (S_ "IN") = Now ls -> ls = [S_ "END"] /\ forall q, ~ asks domain line q.
  Proof.
    intros H T E.
    assert (Hls : ls = [S_ "END"]).
    { revert E. unfold question_PTR. destruct (endswith (S_ ".in-addr.arpa") qname); cbn [negb]; [|now intros [= <-]]. destruct (Nat.eqb _ 4); [discriminate|now intros [= <-]]. }
    split; [exact Hls|]. intros q A. destruct A as [line qn qt host L' T' _|line qn qt a b c d L' T' Ha Hb Hc Hd Eq].
    - destruct (question_one _ _ _ _ _ _ _ H L') as (<- & _ & <-). destruct T' as [->|(-> & NA)].
      + destruct T as [X|(X & _)]; lits.
      + destruct T as [X|(_ & X)]; [lits|]. apply ends in X as (h & ->). now apply (NA h).
    - destruct (question_one _ _ _ _ _ _ _ H L') as (<- & _ & <-). revert E. unfold question_PTR.
      assert (Q : qname = join_dots [d; c; b; a] ++ S_ ".in-addr.arpa") by (rewrite Eq; cbn [join_dots]; unfold arpa; now rewrite <- !app_assoc; cbn [app]; rewrite <- !app_assoc; cbn [app]; rewrite <- !app_assoc).
      rewrite Q. replace (endswith (S_ ".in-addr.arpa") (join_dots [d; c; b; a] ++ S_ ".in-addr.arpa")) with true by (symmetry; apply ends; eauto).
      cbn [negb]. rewrite cut_ends. rewrite split_join_dots; [discriminate|discriminate|]. repeat constructor; assumption.
  Qed.
  Lemma a_now line qname qtype ls : question_line line qname (S_ "IN") qtype -> (qtype = S_ "A" \/ (qtype = S_ "ANY" /\ endswith arpa qname = false)) ->
    question_A domain qname (S_ "IN") = Now ls -> ls = [S_ "END"] /\ forall q, ~ asks domain line q.
  Proof.
    intros H T. unfold question_A. destruct (endswith (S_ "." ++ domain) qname) eqn:E; cbn [negb]; intros X; [discriminate X|]. injection X as <-. split; [reflexivity|]. intros q A.
    destruct A as [line qn qt host L' T' Eq|line qn qt a b c d L' T' Ha Hb Hc Hd Eq]; destruct (question_one _ _ _ _ _ _ _ H L') as (<- & _ & <-).
    - rewrite not_ends in E. now apply (E host).
    - destruct T as [->|(_ & NA)]; [destruct T'; lits|]. rewrite not_ends in NA. apply (NA (d ++ S_ "." ++ c ++ S_ "." ++ b ++ S_ "." ++ a)). rewrite Eq. now rewrite <- !app_assoc.
  Qed.
  Lemma a_asks line qname qtype q : question_line line qname (S_ "IN") qtype -> (qtype = S_ "A" \/ (qtype = S_ "ANY" /\ endswith arpa qname = false)) ->
    question_A domain qname (S_ "IN") = Ask q -> asks domain line q.
  Proof.
    intros H T. unfold question_A. destruct (endswith (S_ "." ++ domain) qname) eqn:E; [|discriminate]. apply ends in E as (h & ->). cbn [negb]. rewrite cut_ends. intros [= <-].
    apply asks_A with (qtype := qtype); auto. destruct T as [->|(-> & NA)]; [now left|]. right. split; [reflexivity|]. now apply not_ends.
  Qed.
  Lemma by_type_now line qname qtype ls : question_line line qname (S_ "IN") qtype -> by_type qname qtype = Now ls -> ls = [S_ "END"] /\ forall q, ~ asks domain line q.
  Proof.
    intros H. unfold by_type. destruct (str_eqb_spec qtype (S_ "A")) as [->|N1]; [apply a_now with (1 := H); auto|].
    destruct (str_eqb_spec qtype (S_ "ANY")) as [->|N2].
    - unfold question_ANY. destruct (endswith (S_ ".in-addr.arpa") qname) eqn:E; [apply ptr_now with (1 := H); auto|apply a_now with (1 := H); auto].
    - destruct (str_eqb_spec qtype (S_ "PTR")) as [->|N3]; [apply ptr_now with (1 := H); auto|]. intros [= <-]. split; [reflexivity|].
      intros q A. destruct A as [line qn qt host L' T' Eq|line qn qt a b c d L' T' Ha Hb Hc Hd Eq]; destruct (question_one _ _ _ _ _ _ _ H L') as (<- & _ & <-); destruct T' as [->|T']; try congruence; destruct T'; congruence.
  Qed.
  Lemma by_type_asks line qname qtype q : question_line line qname (S_ "IN") qtype -> by_type qname qtype = Ask q -> asks domain line q.
  Proof.
    intros H. unfold by_type. destruct (str_eqb_spec qtype (S_ "A")) as [->|N1]; [apply a_asks with (1 := H); auto|].
    destruct (str_eqb_spec qtype (S_ "ANY")) as [->|N2].
    - unfold question_ANY. destruct (endswith (S_ ".in-addr.arpa") qname) eqn:E; [apply ptr_asks with (1 := H); auto|apply a_asks with (1 := H); auto].
    - destruct (str_eqb_spec qtype (S_ "PTR")) as [->|N3]; [apply ptr_asks with (1 := H); auto|discriminate].
  Qed.
  Lemma asks_question line q : asks domain line q -> exists qname qtype, question_line line qname (S_ "IN") qtype.
  Proof. intros A. inversion A; subst; eauto. Qed.

  (** What [handle] does with a line: it agrees with the specification. *)
  Lemma handle_cut line : exists t r, command line t r /\ (match split_n 9 1 line with [a; b] => (a, b) | _ => (line, []) end) = (t, r).
  Proof.
    destruct (cut_at 9 line) as [N|(t & r & -> & N)].
    - exists line, []. split; [split; [exact N|now right]|]. now rewrite split_none.
    - exists t, r. split; [split; [exact N|now left]|]. now rewrite split_some.
  Qed.
  Lemma main_Q_spec line rest : command line (S_ "Q") rest ->
    match main_Q rest with Now ls => immediate true line ls /\ (forall q, ~ asks domain line q) | Ask q => asks domain line q end.
  Proof.
    intros K. unfold PdnsModel.main_Q. destruct (five rest) as [(a & b & c & d & e & -> & A & Bb & C & D & ->)|(T & L)].
    - assert (H : question_line line a b c).
      { exists d, e. repeat split; auto. destruct K as (_ & [->|(-> & K)]); [reflexivity|]. exfalso. eapply app_cons_not_nil. symmetry. exact K. }
      destruct (str_eqb_spec b (S_ "IN")) as [->|Nb]; cbn [negb].
      + fold (by_type a c). destruct (by_type a c) eqn:E.
        * destruct (by_type_now _ _ _ _ H E) as (-> & N). split; [|exact N]. now apply now_nothing with (qname := a) (qtype := c).
        * now apply by_type_asks with (1 := H).
      + split; [now apply now_bad_class with (qname := a) (qtype := c)|]. intros q Q. destruct (asks_question _ _ Q) as (qn & qt & H'). destruct (question_one _ _ _ _ _ _ _ H H') as (_ & X & _). congruence.
    - assert (G : immediate true line [S_ "LOG" ++ 9 :: S_ "Invalid question: " ++ repr rest; S_ "END"] /\ (forall q, ~ asks domain line q)).
      { split; [now apply now_bad_question with (rest := rest)|]. intros q Q. destruct (asks_question _ _ Q) as (qn & qt & H'). destruct (question_command _ _ _ _ H') as (i & p & K' & _).
        destruct (command_one _ _ _ _ _ K K') as (_ & ->). apply T. exists qn, (S_ "IN"), qt, i, p. reflexivity. }
      destruct (split_n 9 4 rest) as [|? [|? [|? [|? [|? [|]]]]]]; try exact G; cbn [length] in L; lia.
  Qed.
  Lemma hello_eq line rest : command line (S_ "HELO") rest -> (rest = S_ "1" <-> line = hello).
  Proof.
    intros K. split.
    - intros ->. destruct K as (_ & [->|(_ & X)]); [reflexivity|discriminate].
    - intros ->. assert (K' : command hello (S_ "HELO") (S_ "1")) by (split; [intros H; repeat (destruct H as [H|H]; [discriminate|]); destruct H|now left]). now destruct (command_one _ _ _ _ _ K K').
  Qed.
  Lemma handle_spec main line : let (main', r) := handle main line in
    (main' = true <-> main = true \/ line = hello) /\
    match r with Now ls => immediate main line ls /\ (main = true -> forall q, ~ asks domain line q) | Ask q => main = true /\ asks domain line q end.
  Proof.
    unfold PdnsModel.handle. destruct (handle_cut line) as (t & r & K & ->).
    assert (NH : t <> S_ "HELO" -> line <> hello).
    { intros N ->. assert (K' : command hello (S_ "HELO") (S_ "1")) by (split; [intros H; repeat (destruct H as [H|H]; [discriminate|]); destruct H|now left]). destruct (command_one _ _ _ _ _ K K'). auto. }
    assert (NQ : t <> S_ "Q" -> forall q, ~ asks domain line q).
    { intros N q Q. destruct (asks_question _ _ Q) as (qn & qt & H'). destruct (question_command _ _ _ _ H') as (i & p & K' & _). destruct (command_one _ _ _ _ _ K K'). auto. }
    destruct main.
    - assert (MM : true = true <-> true = true \/ line = hello) by (split; auto).
      destruct (str_eqb_spec t (S_ "Q")) as [->|N1].
      + pose proof (main_Q_spec line r K) as H. destruct (main_Q r); (split; [exact MM|]); [destruct H; auto|auto].
      + destruct (str_eqb_spec t (S_ "AXFR")) as [->|N2]; [split; [exact MM|]; split; [now apply now_axfr with (rest := r)|auto]|].
        destruct (str_eqb_spec t (S_ "PING")) as [->|N3]; [split; [exact MM|]; split; [now apply now_ping with (rest := r)|auto]|].
        split; [exact MM|]. split; [|auto]. apply (now_unknown domain argv0 repr true line t r K). intros [H|[H|[H|[]]]]; congruence.
    - destruct (str_eqb_spec t (S_ "HELO")) as [->|N1].
      + pose proof (hello_eq line r K) as HH. destruct (str_eqb_spec r (S_ "1")) as [->|N2].
        * assert (line = hello) as -> by now apply HH. split; [split; auto|]. split; [apply now_hello|discriminate].
        * split; [split; [discriminate|]; intros [|X]; [discriminate|]; apply HH in X; congruence|]. split; [now apply now_other_version with (rest := r)|discriminate].
      + split; [split; [discriminate|]; intros [|X]; [discriminate|]; now apply NH in N1|]. split; [|discriminate]. apply (now_unknown domain argv0 repr false line t r K). intros [H|[]]; congruence.
  Qed.
  (** No line is both answered at once and a question to the directory. *)
  Lemma not_both line q ls : asks domain line q -> immediate true line ls -> False.
  Proof.
    intros A I. assert (QL := asks_question _ _ A). destruct QL as (qn & qt & H). destruct (question_command _ _ _ _ H) as (i & p & K & _).
    inversion I; subst.
    - destruct (command_one _ _ _ _ _ K H0) as (<- & _). match goal with X : ~ In _ _ |- _ => apply X; now left end.
    - match goal with X : command line (S_ "AXFR") _ |- _ => destruct (command_one _ _ _ _ _ K X) as (Y & _) end; lits.
    - match goal with X : command line (S_ "PING") _ |- _ => destruct (command_one _ _ _ _ _ K X) as (Y & _) end; lits.
    - match goal with X : command line (S_ "Q") _, Y : ~ four_tabs _ |- _ => destruct (command_one _ _ _ _ _ K X) as (_ & <-); apply Y; exists qn, (S_ "IN"), qt, i, p; reflexivity end.
    - match goal with X : question_line line _ _ _, Y : _ <> S_ "IN" |- _ => destruct (question_one _ _ _ _ _ _ _ H X) as (_ & Z & _); congruence end.
    - match goal with X : forall q, ~ asks _ _ q |- _ => exact (X q A) end.
  Qed.
  Lemma asks_one line q q' : asks domain line q -> asks domain line q' -> q = q'.
  Proof.
    intros A A'. destruct (asks_question _ _ A) as (qn & qt & H). destruct (question_command _ _ _ _ H) as (i & p & K & Na & Nb & Nc & Nd).
    pose proof (main_Q_spec line _ K) as M. unfold PdnsModel.main_Q in M. rewrite split_some, split_some, split_some, split_some in M by assumption. cbn [split_n] in M. change (negb (str_eqb (S_ "IN") (S_ "IN"))) with false in M. cbn iota in M. fold (by_type qn qt) in M.
    assert (G : forall q0, asks domain line q0 -> by_type qn qt = Ask q0).
    { intros q0 A0. destruct (by_type qn qt) as [ls|q1] eqn:E; [destruct M as (_ & M); now destruct (M q0)|]. f_equal. clear M A A' q q'.
      destruct A0 as [line qn0 qt0 host L' T' Eq|line qn0 qt0 a b c d L' T' Ha Hb Hc Hd Eq]; destruct (question_one _ _ _ _ _ _ _ H L') as (<- & _ & <-).
      - revert E. assert (Q : question_A domain qn (S_ "IN") = Ask q1 -> q1 = QA qn (S_ "IN") host).
        { unfold question_A. rewrite Eq. replace (endswith (S_ "." ++ domain) (host ++ S_ "." ++ domain)) with true by (symmetry; apply ends; eauto). cbn [negb]. rewrite cut_ends. now intros [= <-]. }
        unfold by_type. destruct T' as [->|(-> & NA)]; [exact Q|]. change (str_eqb (S_ "ANY") (S_ "A")) with false. change (str_eqb (S_ "ANY") (S_ "ANY")) with true. cbn iota. unfold question_ANY. apply not_ends in NA. fold arpa. now rewrite NA.
      - revert E. assert (Q : question_PTR qn (S_ "IN") = Ask q1 -> q1 = QPTR qn (S_ "IN") (a ++ S_ "." ++ b ++ S_ "." ++ c ++ S_ "." ++ d)).
        { unfold question_PTR. assert (Q : qn = join_dots [d; c; b; a] ++ S_ ".in-addr.arpa") by (rewrite Eq; cbn [join_dots]; unfold arpa; now rewrite <- !app_assoc; cbn [app]; rewrite <- !app_assoc; cbn [app]; rewrite <- !app_assoc).
          replace (cut_end (S_ ".in-addr.arpa") qn) with (join_dots [d; c; b; a]) by (rewrite Q; symmetry; apply cut_ends).
          replace (endswith (S_ ".in-addr.arpa") qn) with true by (symmetry; apply ends; rewrite Q; eauto). cbn [negb]. rewrite split_join_dots; [|discriminate|repeat constructor; assumption].
          cbn [length Nat.eqb negb rev app join_dots]. now intros [= <-]. }
        assert (EN : endswith (S_ ".in-addr.arpa") qn = true) by (apply ends; exists (d ++ S_ "." ++ c ++ S_ "." ++ b ++ S_ "." ++ a); rewrite Eq; now rewrite <- !app_assoc).
        unfold by_type. destruct T' as [E1|E1]; rewrite E1.
        + change (str_eqb (S_ "PTR") (S_ "A")) with false. change (str_eqb (S_ "PTR") (S_ "ANY")) with false. change (str_eqb (S_ "PTR") (S_ "PTR")) with true. exact Q.
        + change (str_eqb (S_ "ANY") (S_ "A")) with false. change (str_eqb (S_ "ANY") (S_ "ANY")) with true. cbn iota. unfold question_ANY. now rewrite EN. }
    apply G in A, A'. congruence.
  Qed.
  (** A line that is answered at once has one answer. *)
  Lemma immediate_handle main line ls : immediate main line ls -> snd (handle main line) = Now ls.
  Proof.
    intros I. destruct I as [|line rest K N|main line type rest K N|line rest K|line rest K|line rest K N|line qname qclass qtype H N|line qname qtype H N].
    - reflexivity.
    - unfold PdnsModel.handle. destruct (handle_cut line) as (t & r & K' & ->). destruct (command_one _ _ _ _ _ K K') as (<- & <-). destruct (str_eqb_spec (S_ "HELO") (S_ "HELO")); [|congruence]. destruct (str_eqb_spec rest (S_ "1")); [congruence|reflexivity].
    - unfold PdnsModel.handle. destruct (handle_cut line) as (t & r & K' & ->). destruct (command_one _ _ _ _ _ K K') as (<- & <-). destruct main; cbn [In] in N.
      + destruct (str_eqb_spec type (S_ "Q")); [exfalso; auto|]. destruct (str_eqb_spec type (S_ "AXFR")); [exfalso; auto|]. destruct (str_eqb_spec type (S_ "PING")); [exfalso; auto|]. reflexivity.
      + destruct (str_eqb_spec type (S_ "HELO")); [exfalso; auto|]. reflexivity.
    - unfold PdnsModel.handle. destruct (handle_cut line) as (t & r & K' & ->). destruct (command_one _ _ _ _ _ K K') as (<- & <-). reflexivity.
    - unfold PdnsModel.handle. destruct (handle_cut line) as (t & r & K' & ->). destruct (command_one _ _ _ _ _ K K') as (<- & <-). reflexivity.
    - unfold PdnsModel.handle. destruct (handle_cut line) as (t & r & K' & ->). destruct (command_one _ _ _ _ _ K K') as (<- & <-). change (str_eqb (S_ "Q") (S_ "Q")) with true. cbn iota. cbn [snd]. unfold PdnsModel.main_Q.
      destruct (five rest) as [(a & b & c & d & e & E & A & Bb & C & D & ->)|(T & L)]; [destruct N; exists a, b, c, d, e; exact E|].
      destruct (split_n 9 4 rest) as [|? [|? [|? [|? [|? [|]]]]]]; try reflexivity; cbn [length] in L; lia.
    - unfold PdnsModel.handle. destruct (handle_cut line) as (t & r & K' & ->). destruct (question_command _ _ _ _ H) as (i & p & K & Na & Nb & Nc & Nd). destruct (command_one _ _ _ _ _ K K') as (<- & <-). change (str_eqb (S_ "Q") (S_ "Q")) with true. cbn iota. cbn [snd]. unfold PdnsModel.main_Q.
      rewrite split_some, split_some, split_some, split_some by assumption. cbn [split_n]. destruct (str_eqb_spec qclass (S_ "IN")); [congruence|reflexivity].
    - unfold PdnsModel.handle. destruct (handle_cut line) as (t & r & K' & ->). destruct (question_command _ _ _ _ H) as (i & p & K & Na & Nb & Nc & Nd). destruct (command_one _ _ _ _ _ K K') as (<- & <-). change (str_eqb (S_ "Q") (S_ "Q")) with true. cbn iota. cbn [snd]. unfold PdnsModel.main_Q.
      rewrite split_some, split_some, split_some, split_some by assumption. cbn [split_n]. change (negb (str_eqb (S_ "IN") (S_ "IN"))) with false. cbn iota. fold (by_type qname qtype).
      destruct (by_type qname qtype) eqn:E; [destruct (by_type_now _ _ _ _ H E) as (-> & _); reflexivity|]. destruct (N q). now apply by_type_asks with (1 := H).
  Qed.
  Lemma immediate_one main line ls ls' : immediate main line ls -> immediate main line ls' -> ls = ls'.
  Proof. intros A B. apply immediate_handle in A, B. congruence. Qed.
End Text.
