(** C12, C13: filters as text. *)
From Verif Require Import Base BaseFacts Utf8Model DnModel FilterTextModel FilterTextSpec FilterTextProofs FilterTextMain.

(** C12. The parser accepts exactly the texts of the grammar, and gives the filter they are texts of:
    so a text has one meaning only, and there is no other way to write a filter. For texts without
    tabs; the recursion limit of Python is a number of levels. *)
Theorem C12_parser_exact : forall (depth : nat) (s : str) (f : tf), no_tab s ->
  (parse_filter depth (PStr s) = Ok f <-> written f s /\ (nesting f <= depth)%nat).
Proof. exact parse_exact. Qed.
Print Assumptions C12_parser_exact.
Theorem C12_one_meaning : forall s f g, no_tab s -> written f s -> written g s -> f = g.
Proof.
  intros s f g N F G. assert (H : parse_filter (Nat.max (nesting f) (nesting g)) (PStr s) = Ok f) by (apply parse_exact; [exact N|]; split; [exact F|lia]).
  assert (K : parse_filter (Nat.max (nesting f) (nesting g)) (PStr s) = Ok g) by (apply parse_exact; [exact N|]; split; [exact G|lia]). congruence.
Qed.
Print Assumptions C12_one_meaning.
(** Every other text is refused with the exception the callers catch, unless it nests too deep. *)
Theorem C12_refuses : forall (depth : nat) (s : str), no_tab s -> (forall f, ~ written f s) ->
  parse_filter depth (PStr s) = Err EInvalidFilter \/ parse_filter depth (PStr s) = Err ERecursion.
Proof.
  intros depth s N H. destruct (parse_filter depth (PStr s)) as [f|x] eqn:E.
  - apply parse_exact in E as (W & _); [|exact N]. destruct (H f W).
  - destruct (parse_errors depth s x N E) as [->| ->]; auto.
Qed.
Print Assumptions C12_refuses.

Lemma round_trip (esc : str -> res str) (ok : str -> Prop) depth f : (forall v, ok v -> exists t, esc v = Ok t /\ value_text v t /\ no_tab t) -> sound_filter ok f -> (nesting f <= depth)%nat ->
  exists s, as_text esc f = Ok s /\ parse_filter depth (PStr s) = Ok f.
Proof.
  intros H S D. destruct (as_text_written esc ok H f S) as (t & E & W & N). exists t. split; [exact E|]. apply parse_exact; auto.
Qed.
(** C12. For every filter with names and rules of the grammar, and values that are not empty and have
    no tab: the text of the filter is read back as the same filter. Missing: the values and filters of
    the refuted statements below. *)
Theorem C12_round_trip_partial : forall (depth : nat) (f : tf),
  sound_filter (fun v => v <> [] /\ no_tab v) f -> (nesting f <= depth)%nat ->
  exists s, as_text (fun v => Ok (escape v)) f = Ok s /\ parse_filter depth (PStr s) = Ok f.
Proof.
  intros depth f. apply round_trip. intros v (N & T). exists (escape v). split; [reflexivity|]. split; [split; [exact N|apply escape_spells]|exact (spells_tab v _ (escape_spells v) T)].
Qed.
Print Assumptions C12_round_trip_partial.
(** The same with binary_escape as the escaper, for characters up to U+00FF: tabs are no problem. *)
Lemma hex_digit_tab d : 0 <= d -> hex_digit d <> 9.
Proof. unfold hex_digit. destruct (d <? 10) eqn:E; lia. Qed.
Lemma binary_tab v : Forall (fun c => 0 <= c < 256) v -> no_tab (binary_escape v).
Proof.
  intros F J. unfold binary_escape in J. apply in_flat_map in J as (c & K & J). rewrite Forall_forall in F. specialize (F c K).
  destruct J as [J|J]; [discriminate|]. destruct (hex02_byte c F) as (h & l & x & y & E & Hh & Hl & _). rewrite E in J.
  destruct J as [->|[->|[]]]; [now vm_compute in Hh|now vm_compute in Hl].
Qed.
Theorem C12_round_trip_binary_partial : forall (depth : nat) (f : tf),
  sound_filter (fun v => v <> [] /\ Forall (fun c => 0 <= c < 256) v) f -> (nesting f <= depth)%nat ->
  exists s, as_text (fun v => Ok (binary_escape v)) f = Ok s /\ parse_filter depth (PStr s) = Ok f.
Proof.
  intros depth f. apply round_trip. intros v (N & F). exists (binary_escape v). split; [reflexivity|]. split; [split; [exact N|now apply binary_spells]|now apply binary_tab].
Qed.
Print Assumptions C12_round_trip_binary_partial.
(** And with smart_escape, which picks one of the two. *)
Theorem C12_round_trip_smart_partial : forall (depth : nat) (f : tf),
  sound_filter (fun v => v <> [] /\ no_tab v /\ Forall (fun c => 0 <= c < 256) v) f -> (nesting f <= depth)%nat ->
  exists s, as_text smart_escape f = Ok s /\ parse_filter depth (PStr s) = Ok f.
Proof.
  intros depth f. apply round_trip. intros v (N & T & F). unfold smart_escape. destruct (Z.eqb_spec (zlen v) 0) as [E|_]; [destruct v; [congruence|]; rewrite zlen_cons in E; pose proof (zlen_nonneg v); lia|].
  destruct (3 * zlen v <? _).
  - exists (binary_escape v). split; [reflexivity|]. split; [split; [exact N|now apply binary_spells]|now apply binary_tab].
  - exists (escape v). split; [reflexivity|]. split; [split; [exact N|apply escape_spells]|exact (spells_tab v _ (escape_spells v) T)].
Qed.
Print Assumptions C12_round_trip_smart_partial.
Definition x_filter : tf :=
  TAnd [TOr [TCmp CEq (S_ "cn") (S_ "a*(b)\c" ++ [0; 233; 8364]); TPresent (S_ "mail;lang-en")];
        TNot (TSub (S_ "sn") [SInitial (S_ "x*"); SAny (S_ "("); SAny (S_ " "); SFinal (S_ "dn:=")]);
        TExt (Some (S_ "1.2.3")) None (S_ "v)") (Some true); TExt (Some (S_ "caseIgnoreMatch")) (Some (S_ "o")) (S_ "=") (Some false); TCmp CLe (S_ "age") (S_ "*")].
Ltac name := eexists _, _; split; [reflexivity|]; split; [unfold letter; vm_compute; intuition congruence|]; repeat (apply Forall_cons; [unfold name_char, letter, decimal; vm_compute; intuition congruence|]); apply Forall_nil.
Lemma x_sound : sound_filter (fun v => v <> [] /\ no_tab v) x_filter.
Proof.
  assert (V : forall v, v <> [] -> existsb (Z.eqb 9) v = false -> v <> [] /\ no_tab v) by (intros v N E; split; [exact N|now apply tab_lit]).
  apply sf_and; [discriminate|]. repeat (apply Forall_cons); [| | | | |apply Forall_nil].
  - apply sf_or; [discriminate|]. repeat (apply Forall_cons); [| |apply Forall_nil].
    + apply sf_cmp; [name|apply V; [discriminate|reflexivity]].
    + apply sf_present. name.
  - apply sf_not, sf_sub; [name|discriminate|exists (Some (S_ "x*")), [S_ "("; S_ " "], (Some (S_ "dn:=")); reflexivity|].
    repeat (apply Forall_cons; [apply V; [discriminate|reflexivity]|]). apply Forall_nil.
  - apply sf_ext; [right; discriminate|discriminate| |apply V; [discriminate|reflexivity]]. intros r [= <-]. split; [|discriminate]. right.
    apply (num_dot (S_ "1")); [discriminate|repeat constructor; unfold decimal; vm_compute; congruence|]. apply (num_dot (S_ "2")); [discriminate|repeat constructor; unfold decimal; vm_compute; congruence|].
    apply num_one; [discriminate|repeat constructor; unfold decimal; vm_compute; congruence].
  - apply sf_ext; [left; discriminate|intros a [= <-]; name| |apply V; [discriminate|reflexivity]]. intros r [= <-]. split; [left; name|]. intros _ (t & E). discriminate E.
  - apply sf_cmp; [name|apply V; [discriminate|reflexivity]].
Qed.
Example C12_case : sound_filter (fun v => v <> [] /\ no_tab v) x_filter /\
  as_text (fun v => Ok (escape v)) x_filter =
    Ok (S_ "(&(|(cn=a\2a\28b\29\5cc\00" ++ [233; 8364] ++ S_ ")(mail;lang-en=*))(!(sn=x\2a*\28* *dn:=))(:dn:1.2.3:=v\29)(o:caseIgnoreMatch:==)(age<=\2a))") /\
  parse_filter 3 (PStr (S_ "(&(|(cn=a\2a\28b\29\5cc\00" ++ [233; 8364] ++ S_ ")(mail;lang-en=*))(!(sn=x\2a*\28* *dn:=))(:dn:1.2.3:=v\29)(o:caseIgnoreMatch:==)(age<=\2a))")) = Ok x_filter.
Proof. split; [exact x_sound|]. split; vm_compute; reflexivity. Qed.

(** What does not come back. A tab in a value: the parser turns tabs into spaces. *)
Theorem C12_tab_refuted : exists v s w, v <> [] /\ as_text (fun v => Ok (escape v)) (TCmp CEq (S_ "cn") v) = Ok s /\
  parse_filter 9 (PStr s) = Ok (TCmp CEq (S_ "cn") w) /\ w <> v.
Proof. exists [97; 9; 98], (S_ "(cn=a" ++ 9 :: S_ "b)"), (S_ "a   b"). split; [discriminate|]. split; [vm_compute; reflexivity|]. split; [vm_compute; reflexivity|discriminate]. Qed.
Print Assumptions C12_tab_refuted.
(** An extensible match without dnAttributes comes back with dnAttributes false, which is another
    object: it has one more field on the wire. *)
Theorem C12_dn_flag_refuted : exists f s g, as_text (fun v => Ok (escape v)) f = Ok s /\ parse_filter 9 (PStr s) = Ok g /\ g <> f.
Proof. exists (TExt (Some (S_ "2.4")) (Some (S_ "cn")) (S_ "v") None), (S_ "(cn:2.4:=v)"), (TExt (Some (S_ "2.4")) (Some (S_ "cn")) (S_ "v") (Some false)). split; [vm_compute; reflexivity|]. split; [vm_compute; reflexivity|discriminate]. Qed.
Print Assumptions C12_dn_flag_refuted.
(** A matching rule whose name begins with "dn" is taken for the flag: one is refused, another makes a
    filter with another meaning. *)
Theorem C12_rule_refuted :
  (exists s, as_text (fun v => Ok (escape v)) (TExt (Some (S_ "dnMatch")) (Some (S_ "cn")) (S_ "v") (Some false)) = Ok s /\ parse_filter 9 (PStr s) = Err EInvalidFilter) /\
  (exists s, as_text (fun v => Ok (escape v)) (TExt (Some (S_ "dn")) (Some (S_ "cn")) (S_ "v") (Some false)) = Ok s /\ parse_filter 9 (PStr s) = Ok (TExt None (Some (S_ "cn")) (S_ "v") (Some true))).
Proof. split; [exists (S_ "(cn:dnMatch:=v)"); split; vm_compute; reflexivity|]. exists (S_ "(cn:dn:=v)"). split; vm_compute; reflexivity. Qed.
Print Assumptions C12_rule_refuted.
(** A match on no substrings prints as presence; an empty value, and a conjunction or disjunction of
    nothing, print as texts that the parser refuses. *)
Theorem C12_empty_refuted :
  (exists s, as_text (fun v => Ok (escape v)) (TSub (S_ "cn") []) = Ok s /\ parse_filter 9 (PStr s) = Ok (TPresent (S_ "cn"))) /\
  (exists s, as_text (fun v => Ok (escape v)) (TCmp CEq (S_ "cn") []) = Ok s /\ parse_filter 9 (PStr s) = Err EInvalidFilter) /\
  (exists s, as_text (fun v => Ok (escape v)) (TAnd []) = Ok s /\ parse_filter 9 (PStr s) = Err EInvalidFilter).
Proof.
  split; [exists (S_ "(cn=*)"); split; vm_compute; reflexivity|]. split; [exists (S_ "(cn=)"); split; vm_compute; reflexivity|]. exists (S_ "(&)"). split; vm_compute; reflexivity.
Qed.
Print Assumptions C12_empty_refuted.
(** binary_escape writes more than two digits for characters above U+00FF: another value comes back.
    smart_escape divides by the length of the value. *)
Theorem C12_escapers_refuted :
  (exists v s w, as_text (fun v => Ok (binary_escape v)) (TCmp CEq (S_ "cn") v) = Ok s /\ parse_filter 9 (PStr s) = Ok (TCmp CEq (S_ "cn") w) /\ w <> v) /\
  as_text smart_escape (TCmp CEq (S_ "cn") []) = Err EZeroDiv.
Proof.
  split; [|reflexivity]. exists [8364], (S_ "(cn=\20ac)"), (S_ " ac"). split; [vm_compute; reflexivity|]. split; [vm_compute; reflexivity|discriminate].
Qed.
Print Assumptions C12_escapers_refuted.

(** C13. For every text with a mark in it (any character above U+00FF) that parses to a filter F: put a
    user's string, escaped, in place of every mark. The result parses, to F with the string itself in
    place of the marks in its values, and nothing else changed. For strings that are not empty and have
    no tab. *)
Theorem C13_escaped_value_partial : forall (depth : nat) (P : Z) (t : str) (F : tf) (u : str),
  marker P -> no_tab t -> parse_filter depth (PStr t) = Ok F -> u <> [] -> no_tab u ->
  parse_filter depth (PStr (put P (escape u) t)) = Ok (fill P u F).
Proof.
  intros depth P t F u M N H U T. apply template; auto; [split; [exact U|apply escape_spells]|exact (spells_tab u _ (escape_spells u) T)].
Qed.
Print Assumptions C13_escaped_value_partial.
Example C13_case :
  let t := S_ "(&(uid=" ++ [8226] ++ S_ ")(!(mail=*" ++ [8226] ++ S_ "@x)))" in
  parse_filter 9 (PStr t) = Ok (TAnd [TCmp CEq (S_ "uid") [8226]; TNot (TSub (S_ "mail") [SFinal (8226 :: S_ "@x")])]) /\
  put 8226 (escape (S_ "*)(objectClass=\2a")) t = S_ "(&(uid=\2a\29\28objectClass=\5c2a)(!(mail=*\2a\29\28objectClass=\5c2a@x)))" /\
  parse_filter 9 (PStr (put 8226 (escape (S_ "*)(objectClass=\2a")) t)) =
    Ok (TAnd [TCmp CEq (S_ "uid") (S_ "*)(objectClass=\2a"); TNot (TSub (S_ "mail") [SFinal (S_ "*)(objectClass=\2a@x")])]).
Proof. split; [vm_compute; reflexivity|]. split; vm_compute; reflexivity. Qed.
(** The structure of the filter is the same for all strings. *)
Fixpoint shape (f : tf) : tf :=
  match f with
  | TAnd fs => TAnd (map shape fs) | TOr fs => TOr (map shape fs) | TNot x => TNot (shape x)
  | TCmp c a _ => TCmp c a [] | TPresent a => TPresent a
  | TSub a ss => TSub a (map (fun s => match s with SInitial _ => SInitial [] | SAny _ => SAny [] | SFinal _ => SFinal [] end) ss)
  | TExt r ty _ d => TExt r ty [] d
  end.
Lemma shape_fill P u f : shape (fill P u f) = shape f.
Proof.
  induction f as [fs IH|fs IH|f IH|c a v|a|a ss|r t v d] using tf_ind'; cbn [fill shape]; try reflexivity.
  - f_equal. rewrite map_map. apply map_ext_Forall, IH.
  - f_equal. rewrite map_map. apply map_ext_Forall, IH.
  - now rewrite IH.
  - f_equal. rewrite map_map. apply map_ext. now intros [x|x|x].
Qed.
Theorem C13_same_shape_partial : forall (depth : nat) (P : Z) (t : str) (F : tf) (u w : str) (f g : tf),
  marker P -> no_tab t -> parse_filter depth (PStr t) = Ok F -> u <> [] -> no_tab u -> w <> [] -> no_tab w ->
  parse_filter depth (PStr (put P (escape u) t)) = Ok f -> parse_filter depth (PStr (put P (escape w) t)) = Ok g -> shape f = shape g.
Proof.
  intros depth P t F u w f g M N H U Tu W Tw Ef Eg. rewrite (C13_escaped_value_partial depth P t F u M N H U Tu) in Ef. rewrite (C13_escaped_value_partial depth P t F w M N H W Tw) in Eg.
  apply (f_equal (fun x => match x with Ok y => shape y | Err _ => TAnd [] end)) in Ef. apply (f_equal (fun x => match x with Ok y => shape y | Err _ => TAnd [] end)) in Eg. cbn beta iota in Ef, Eg. rewrite shape_fill in Ef, Eg. congruence.
Qed.
Print Assumptions C13_same_shape_partial.
(** Without tabs being escaped the string does not come back; the empty string makes the text invalid. *)
Theorem C13_refuted : exists (t : str) (u : str) (f : tf),
  parse_filter 9 (PStr (put 8226 (escape u) t)) = Ok f /\ u <> [] /\ parse_filter 9 (PStr t) = Ok (TCmp CEq (S_ "cn") [8226]) /\ f <> TCmp CEq (S_ "cn") u.
Proof.
  exists (S_ "(cn=" ++ 8226 :: S_ ")"), [9], (TCmp CEq (S_ "cn") (S_ "    ")). split; [vm_compute; reflexivity|]. split; [discriminate|]. split; [vm_compute; reflexivity|discriminate].
Qed.
Print Assumptions C13_refuted.
Theorem C13_empty_refuted : exists t F, parse_filter 9 (PStr t) = Ok F /\ parse_filter 9 (PStr (put 8226 (escape []) t)) = Err EInvalidFilter.
Proof. exists (S_ "(cn=" ++ 8226 :: S_ ")"), (TCmp CEq (S_ "cn") [8226]). split; vm_compute; reflexivity. Qed.
Print Assumptions C13_empty_refuted.
