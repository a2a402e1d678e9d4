(** C99, C100: the backend of ldap2pdns. *)
From Verif Require Import Base BaseFacts Utf8Model DnModel DnSpec EntryModel FilterTextModel FilterTextSpec FilterTextProofs FilterTextMain UtilModel ToolsModel PdnsModel PdnsSpec PdnsText PdnsProofs PdnsFetch PdnsEnd PropsFilterText PropsIdentity.

(** ** C99. Answers come in the order of the lines *)
(** The lines that have come are those of the input, by number. What has been sent is the answers to the
    first of them, one after the other, and the line behind these has no answer yet. *)
Theorem C99_in_order : forall (lower : str -> str) (depth : nat) (domain argv0 : str) (repr : str -> str) (traceback : exn -> list str) (evs : list pevent),
  let tr := p_trace (run lower depth domain argv0 repr traceback evs) in
  (forall n s, In (n, s) (lines tr) <-> nth_error (input_lines evs) n = Some s) /\
  exists ans, sent tr = concat ans /\ (length ans <= length (input_lines evs))%nat /\
    (forall n ls, nth_error ans n = Some ls -> answer lower domain argv0 repr traceback tr n ls) /\
    ((length ans < length (input_lines evs))%nat -> forall ls, ~ answer lower domain argv0 repr traceback tr (length ans) ls).
Proof. exact in_order. Qed.
Print Assumptions C99_in_order.
(** There is never more than one answer. *)
Theorem C99_one_answer : forall (lower : str -> str) (depth : nat) (domain argv0 : str) (repr : str -> str) (traceback : exn -> list str) (evs : list pevent) (n : nat) (ls ls' : list str),
  let tr := p_trace (run lower depth domain argv0 repr traceback evs) in
  answer lower domain argv0 repr traceback tr n ls -> answer lower domain argv0 repr traceback tr n ls' -> ls = ls'.
Proof. exact one_answer. Qed.
Print Assumptions C99_one_answer.
(** The process ends when the input has ended and every line has its answer, not before; it ends once, and
    nothing is sent after that. *)
Theorem C99_stops : forall (lower : str -> str) (depth : nat) (domain argv0 : str) (repr : str -> str) (traceback : exn -> list str) (evs : list pevent),
  let tr := p_trace (run lower depth domain argv0 repr traceback evs) in
  (In PStop tr <-> In IEnd evs /\ forall n, (n < length (input_lines evs))%nat -> exists ls, answer lower domain argv0 repr traceback tr n ls) /\
  forall a b, tr = a ++ PStop :: b -> sent b = [] /\ ~ In PStop b.
Proof. exact stops. Qed.
Print Assumptions C99_stops.
(** When every search has ended and no connection is awaited, every line has its answer. Missing: this is
    so only if asking for a connection has never raised, see below. *)
Theorem C99_all_answered_partial : forall (lower : str -> str) (depth : nat) (domain argv0 : str) (repr : str -> str) (traceback : exn -> list str) (evs : list pevent),
  let tr := p_trace (run lower depth domain argv0 repr traceback evs) in
  (forall n f at_, In (PSearch n f at_) tr -> exists r, In (PFound n r) tr) -> ~ awaited tr -> (forall n x, ~ In (PRaised n x) tr) ->
  forall n, (n < length (input_lines evs))%nat -> exists ls, answer lower domain argv0 repr traceback tr n ls.
Proof. exact all_answered. Qed.
Print Assumptions C99_all_answered_partial.
(** A question fails before its search only for a reason: too many wait, its filter is not one, or the
    connection could not be made. At most eleven wait. Nothing raises but the loss of a connection. *)
Theorem C99_refusals : forall (lower : str -> str) (depth : nat) (domain argv0 : str) (repr : str -> str) (traceback : exn -> list str) (evs : list pevent),
  let p := run lower depth domain argv0 repr traceback evs in
  (forall n x, In (PRefused n x) (p_trace p) -> exists q, about domain (p_trace p) n q /\ why_refused depth (p_trace p) n q x) /\
  (length (p_waiting p) <= 11)%nat /\
  (forall x, In (PExc x) (p_trace p) -> exists c, In (PLost c) (p_trace p)).
Proof.
  intros lower depth domain argv0 repr traceback evs p. destruct (runs lower depth domain argv0 repr traceback evs) as (ans & its & I).
  split; [exact (i_ref _ _ _ _ _ _ _ _ _ _ I)|]. split; [exact (f_bound _ (finv_run lower depth domain argv0 repr traceback evs))|exact (i_exc _ _ _ _ _ _ _ _ _ _ I)].
Qed.
Print Assumptions C99_refusals.
(** If asking for a connection has raised once, nothing is searched for any more and no connection is asked
    for, whatever comes; a question that comes then has no answer, or FAIL since too many wait. *)
Theorem C99_raised_forever : forall (lower : str -> str) (depth : nat) (domain argv0 : str) (repr : str -> str) (traceback : exn -> list str) (evs evs' : list pevent) (n : nat) (x : exn),
  In (PRaised n x) (p_trace (run lower depth domain argv0 repr traceback evs)) ->
  let tr := p_trace (run lower depth domain argv0 repr traceback (evs ++ evs')) in
  (exists es, tr = p_trace (run lower depth domain argv0 repr traceback evs) ++ es /\ ~ In PFetch es /\ forall m f at_, ~ In (PSearch m f at_) es) /\
  (forall m q ls, (length (input_lines evs) <= m)%nat -> about domain tr m q -> answer lower domain argv0 repr traceback tr m ls -> ls = fails traceback ETooMuch).
Proof.
  intros lower depth domain argv0 repr traceback evs evs' n x J tr. split.
  - destruct (raised_dead lower depth domain argv0 repr traceback evs evs' n x J) as (es & E & F). rewrite Forall_forall in F. exists es. split; [exact E|]. split; [exact (F PFetch)|]. intros m f at_. exact (F (PSearch m f at_)).
  - intros m q ls. exact (raised_unanswered lower depth domain argv0 repr traceback evs evs' n x m q ls J).
Qed.
Print Assumptions C99_raised_forever.

(** A run: two questions wait for the connection; the second search ends first. *)
Definition px_dn : dn := [].
Definition px_host (k v : string) : entry := mkEntry px_dn [mkSet (PStr (S_ k)) [PStr (S_ v)]].
Definition px_repr (s : str) : str := S_ "'" ++ s ++ S_ "'".
Definition px_trace (x : exn) : list str := [S_ "Traceback"].
Definition px_none : soonest := fun _ => None.
Definition px_line (l : list string) : pevent := ILine (join TAB (map S_ l)) MLater px_none.
Definition px_run (evs : list pevent) : pdns := run ascii_lower 9 (S_ "example.com") (S_ "pdns") px_repr px_trace evs.
Definition px_A : pevent := px_line ["Q"; "www.example.com"; "IN"; "A"; "-1"; "127.0.0.1"].
Definition px_P : pevent := px_line ["Q"; "4.3.2.1.in-addr.arpa"; "IN"; "ANY"; "-1"; "127.0.0.1"].
Definition px_evs : list pevent := [px_line ["HELO"; "1"]; px_A; px_P; px_line ["PING"]; IEntry 0 px_none; IFound 2 (Ok [px_host "cn" "www"])].
Definition px_end : list pevent := [IEnd; IFound 1 (Ok [px_host "iphostnumber" "1.2.3.4"; px_host "IPHOSTNUMBER" "1.2.3.5"])].
Example C99_case :
  sent (p_trace (px_run px_evs)) = [join TAB [S_ "OK"; S_ "pdns"]] /\
  sent (p_trace (px_run (px_evs ++ px_end))) =
    [join TAB [S_ "OK"; S_ "pdns"];
     join TAB (map S_ ["DATA"; "www.example.com"; "IN"; "A"; "3600"; "-1"; "1.2.3.4"]);
     join TAB (map S_ ["DATA"; "www.example.com"; "IN"; "A"; "3600"; "-1"; "1.2.3.5"]); S_ "END";
     join TAB (map S_ ["DATA"; "4.3.2.1.in-addr.arpa"; "IN"; "PTR"; "3600"; "-1"; "www.example.com."]); S_ "END";
     S_ "END"] /\
  filter (fun e => match e with PStop => true | _ => false end) (p_trace (px_run (px_evs ++ px_end))) = [PStop].
Proof. repeat split; vm_compute; reflexivity. Qed.
Lemma not_awaited tr : awaited tr -> fold_left (fun w e => match e with PFetch => true | PEntry _ | PNoEntry _ | PRaised _ _ => false | _ => w end) tr false = true.
Proof.
  intros (a & b & -> & H). rewrite fold_left_app. cbn [fold_left]. clear a.
  assert (X : forall w, w = true -> fold_left (fun w e => match e with PFetch => true | PEntry _ | PNoEntry _ | PRaised _ _ => false | _ => w end) b w = true); [|now apply X].
  induction b as [|e b IH]; intros w W; cbn [fold_left]; [exact W|]. apply IH; [intros e' J; apply H; now right|]. specialize (H e (or_introl eq_refl)). destruct e; try tauto; reflexivity.
Qed.
(** The hypotheses of [C99_all_answered_partial] hold for it. *)
Example C99_all_case : let tr := p_trace (px_run (px_evs ++ px_end)) in
  (forall n f at_, In (PSearch n f at_) tr -> exists r, In (PFound n r) tr) /\ ~ awaited tr /\ (forall n x, ~ In (PRaised n x) tr) /\ length (input_lines (px_evs ++ px_end)) = 4%nat.
Proof.
  cbv zeta. let t := eval vm_compute in (p_trace (px_run (px_evs ++ px_end))) in assert (Q : p_trace (px_run (px_evs ++ px_end)) = t) by (vm_compute; reflexivity). rewrite Q. clear Q.
  split; [|split; [|split; [|reflexivity]]].
  - intros n f at_ J. cbn [In] in J. repeat (destruct J as [J|J]; [first [discriminate|injection J as <- _ _; eexists; cbn [In]; eauto 20]|]). destruct J.
  - intros W. apply not_awaited in W. discriminate W.
  - intros n x J. cbn [In] in J. repeat (destruct J as [J|J]; [discriminate|]). destruct J.
Qed.
(** The factory raises at the first question: the input has ended, nothing runs, and yet the second
    question has no answer and the process does not end. *)
Definition px_raise : list pevent := [px_line ["HELO"; "1"]; ILine (join TAB (map S_ ["Q"; "www.example.com"; "IN"; "A"; "-1"; "127.0.0.1"])) (MRaise EValue) px_none].
Definition px_stuck : list pevent := px_raise ++ [px_A; IEnd].
Lemma px_raised : In (PRaised 1 EValue) (p_trace (px_run px_raise)).
Proof. let t := eval vm_compute in (p_trace (px_run px_raise)) in assert (E : p_trace (px_run px_raise) = t) by (vm_compute; reflexivity). rewrite E. cbn [In]. auto 10. Qed.
Lemma px_forever evs evs' n x m q ls : In (PRaised n x) (p_trace (px_run evs)) -> (length (input_lines evs) <= m)%nat -> about (S_ "example.com") (p_trace (px_run (evs ++ evs'))) m q ->
  answer ascii_lower (S_ "example.com") (S_ "pdns") px_repr px_trace (p_trace (px_run (evs ++ evs'))) m ls -> ls = fails px_trace ETooMuch.
Proof. exact (raised_unanswered ascii_lower 9 (S_ "example.com") (S_ "pdns") px_repr px_trace evs evs' n x m q ls). Qed.
Lemma px_about : about (S_ "example.com") (p_trace (px_run px_stuck)) 2 (QA (S_ "www.example.com") (S_ "IN") (S_ "www")).
Proof.
  exists (join TAB (map S_ ["Q"; "www.example.com"; "IN"; "A"; "-1"; "127.0.0.1"])).
  assert (E : lines (p_trace (px_run px_stuck)) = [(0%nat, hello); (1%nat, join TAB (map S_ ["Q"; "www.example.com"; "IN"; "A"; "-1"; "127.0.0.1"])); (2%nat, join TAB (map S_ ["Q"; "www.example.com"; "IN"; "A"; "-1"; "127.0.0.1"]))]) by (vm_compute; reflexivity).
  unfold greeted. rewrite E. split; [right; right; now left|]. split; [exists 0%nat; split; [lia|now left]|].
  apply asks_A with (qtype := S_ "A"); [|now left|reflexivity]. exists (S_ "-1"), (S_ "127.0.0.1"). repeat split; intros J; cbn in J; repeat (destruct J as [J|J]; [discriminate|]); destruct J.
Qed.
Theorem C99_refuted : exists evs, let tr := p_trace (px_run evs) in
  In IEnd evs /\ (exists q, about (S_ "example.com") tr 2 q) /\ (forall n f at_, ~ In (PSearch n f at_) tr) /\ ~ awaited tr /\ ~ In PStop tr /\
  (forall evs' q ls, about (S_ "example.com") (p_trace (px_run (evs ++ evs'))) 2 q -> answer ascii_lower (S_ "example.com") (S_ "pdns") px_repr px_trace (p_trace (px_run (evs ++ evs'))) 2 ls -> ls = fails px_trace ETooMuch).
Proof.
  exists px_stuck. cbv zeta. split; [right; right; right; now left|]. split; [exists (QA (S_ "www.example.com") (S_ "IN") (S_ "www")); exact px_about|].
  split; [|split; [|split]].
  - intros n f at_ J. assert (E : searched (p_trace (px_run px_stuck)) = []) by (vm_compute; reflexivity). assert (X : In n (searched (p_trace (px_run px_stuck)))) by (apply searched_in; eauto). now rewrite E in X.
  - intros W. apply not_awaited in W. revert W. vm_compute. discriminate.
  - intros J. assert (E : existsb (fun e => match e with PStop => true | _ => false end) (p_trace (px_run px_stuck)) = false) by (vm_compute; reflexivity).
    assert (X : existsb (fun e => match e with PStop => true | _ => false end) (p_trace (px_run px_stuck)) = true) by (apply existsb_exists; eauto). congruence.
  - intros evs' q ls. unfold px_stuck. rewrite <- app_assoc. apply px_forever with (n := 1%nat) (x := EValue); [exact px_raised|cbn; lia].
Qed.
Print Assumptions C99_refuted.
(** And as the script stands, no line ever comes: a greeting raises TypeError. *)
Theorem C99_octets_refuted : exists data, snd (data_received [] data) = Err EType.
Proof. exists (B "HELO 1"). reflexivity. Qed.
Print Assumptions C99_octets_refuted.

(** ** C100. What is asked of the directory *)
Lemma parse_deeper d depth s f : no_tab s -> parse_filter d (PStr s) = Ok f -> (nesting f <= depth)%nat -> parse_filter depth (PStr s) = Ok f.
Proof. intros N H L. apply parse_exact in H as (W & _); [|exact N]. apply parse_exact; auto. Qed.
Lemma meant_text depth q : (2 <= depth)%nat -> harmless (subject q) -> parse_filter depth (PStr (text_of q)) = Ok (meant q).
Proof.
  intros D H. destruct (harmless_text _ H) as (V & T). assert (M : marker 8226) by reflexivity. destruct q as [qname qclass h|qname qclass h]; cbn [subject text_of meant] in *.
  - assert (N : no_tab (S_ "(&(cn=" ++ 8226 :: S_ ")(ipHostNumber=*))")) by (intros J; cbn in J; repeat (destruct J as [J|J]; [discriminate|]); destruct J).
    pose proof (template depth 8226 h h _ (TAnd [TCmp CEq (S_ "cn") [8226]; TPresent (S_ "ipHostNumber")]) M N V T) as P.
    cbn [fill map] in P. rewrite put_mark in P. change (8226 :: S_ ")(ipHostNumber=*))") with ([8226] ++ S_ ")(ipHostNumber=*))") in P. rewrite !put_app', put_mark, !put_free in P by (intros J; cbn in J; repeat (destruct J as [J|J]; [discriminate|]); destruct J).
    apply P. apply (parse_deeper 9); [exact N|vm_compute; reflexivity|cbn; lia].
  - assert (N : no_tab (S_ "(ipHostNumber=" ++ 8226 :: S_ ")")) by (intros J; cbn in J; repeat (destruct J as [J|J]; [discriminate|]); destruct J).
    pose proof (template depth 8226 h h _ (TCmp CEq (S_ "ipHostNumber") [8226]) M N V T) as P.
    cbn [fill map] in P. rewrite put_mark in P. change (8226 :: S_ ")") with ([8226] ++ S_ ")") in P. rewrite !put_app', put_mark, !put_free in P by (intros J; cbn in J; repeat (destruct J as [J|J]; [discriminate|]); destruct J).
    apply P. apply (parse_deeper 9); [exact N|vm_compute; reflexivity|cbn; lia].
Qed.
(** Every search is for a question that has come, for the attribute that its answer needs, and for the host
    or the address that it names, if this is only data. No line is searched for twice, and only for a line
    that is searched for is anything found. Missing: the other names, see below. *)
Theorem C100_searches_partial : forall (lower : str -> str) (depth : nat) (domain argv0 : str) (repr : str -> str) (traceback : exn -> list str) (evs : list pevent),
  let tr := p_trace (run lower depth domain argv0 repr traceback evs) in
  (forall n f at_, In (PSearch n f at_) tr -> exists q, about domain tr n q /\ at_ = [asked_for q] /\ parse_filter depth (PStr (text_of q)) = Ok f /\
    ((2 <= depth)%nat -> harmless (subject q) -> f = meant q)) /\
  (forall n f at_ a b, tr = a ++ PSearch n f at_ :: b -> forall f' at', ~ In (PSearch n f' at') (a ++ b)) /\
  (forall n r, In (PFound n r) tr -> exists f at_, In (PSearch n f at_) tr).
Proof.
  intros lower depth domain argv0 repr traceback evs tr. destruct (runs lower depth domain argv0 repr traceback evs) as (ans & its & I). split; [|split].
  - intros n f at_ J. destruct (i_ps _ _ _ _ _ _ _ _ _ _ I n f at_ J) as (q & A & P & E). exists q. repeat (split; [assumption|]). intros D H. rewrite (meant_text depth q D H) in P. congruence.
  - intros n f at_ a b E f' at' J. destruct (i_once _ _ _ _ _ _ _ _ _ _ I) as (N & _). fold tr in N. rewrite E, searched_app in N. cbn [searched flat_map app] in N. apply NoDup_remove_2 in N. apply N. apply in_app_iff.
    apply in_app_iff in J as [J|J]; [left|right]; apply searched_in; eauto.
  - intros n r J. apply searched_in. exact (i_found _ _ _ _ _ _ _ _ _ _ I n r J).
Qed.
Print Assumptions C100_searches_partial.
(** A line is read in one way: as one question to the directory, or as one that is answered at once. *)
Theorem C100_one_reading : forall (domain argv0 : str) (repr : str -> str) (line : str),
  (forall q q', asks domain line q -> asks domain line q' -> q = q') /\
  (forall q ls, asks domain line q -> ~ immediate domain argv0 repr true line ls) /\
  (forall main ls ls', immediate domain argv0 repr main line ls -> immediate domain argv0 repr main line ls' -> ls = ls') /\
  (exists ls, immediate domain argv0 repr false line ls) /\
  ((exists q, asks domain line q) \/ exists ls, immediate domain argv0 repr true line ls).
Proof.
  intros domain argv0 repr line. split; [exact (asks_one domain argv0 repr line)|]. split; [intros q ls A I; exact (not_both domain argv0 repr line q ls A I)|]. split; [intros main; exact (immediate_one domain argv0 repr main line)|].
  split.
  - pose proof (handle_spec domain argv0 repr false line) as H. destruct (handle domain argv0 repr false line) as (m & [ls|q]); [exists ls; tauto|]. destruct H as (_ & X & _). discriminate.
  - pose proof (handle_spec domain argv0 repr true line) as H. destruct (handle domain argv0 repr true line) as (m & [ls|q]); [right; exists ls; tauto|left; exists q; tauto].
Qed.
Print Assumptions C100_one_reading.
Definition px_search (name : string) : list ptev :=
  filter (fun e => match e with PSearch _ _ _ => true | _ => false end) (p_trace (px_run [px_line ["HELO"; "1"]; px_line ["Q"; name; "IN"; "A"; "-1"; "127.0.0.1"]; IEntry 0 px_none])).
Example C100_case : harmless (S_ "www") /\
  px_search "www.example.com" = [PSearch 1 (TAnd [TCmp CEq (S_ "cn") (S_ "www"); TPresent (S_ "ipHostNumber")]) [S_ "ipHostNumber"]] /\
  filter (fun e => match e with PSearch _ _ _ => true | _ => false end) (p_trace (px_run px_evs)) =
    [PSearch 1 (TAnd [TCmp CEq (S_ "cn") (S_ "www"); TPresent (S_ "ipHostNumber")]) [S_ "ipHostNumber"]; PSearch 2 (TCmp CEq (S_ "ipHostNumber") (S_ "1.2.3.4")) [S_ "cn"]].
Proof.
  split; [split; [discriminate|]; repeat constructor; intros J; cbn in J; repeat (destruct J as [J|J]; [discriminate|]); destruct J|]. split; vm_compute; reflexivity.
Qed.
(** Who asks can choose the filter: an asterisk finds every host, and parentheses ask about other
    attributes. *)
Theorem C100_injection_refuted : exists name name' : string,
  px_search name = [PSearch 1 (TAnd [TPresent (S_ "cn"); TPresent (S_ "ipHostNumber")]) [S_ "ipHostNumber"]] /\
  px_search name' = [PSearch 1 (TAnd [TCmp CEq (S_ "cn") (S_ "www"); TCmp CEq (S_ "userPassword") (S_ "x"); TPresent (S_ "ipHostNumber")]) [S_ "ipHostNumber"]].
Proof. exists "*.example.com"%string, "www)(userPassword=x.example.com"%string. split; vm_compute; reflexivity. Qed.
Print Assumptions C100_injection_refuted.
(** The values of an entry that comes from a server are octets: every answer with a record is FAIL. *)
Theorem C100_octets_refuted : exists evs e, In (IFound 1 (Ok [e])) evs /\ get_values ascii_lower (PStr (S_ "ipHostNumber")) e = Ok [PBytes (B "1.2.3.4")] /\
  sent (p_trace (px_run evs)) = [join TAB [S_ "OK"; S_ "pdns"]; join TAB [S_ "LOG"; S_ "Traceback"]; S_ "FAIL"].
Proof.
  exists [px_line ["HELO"; "1"]; px_A; IEntry 0 px_none; IFound 1 (Ok [mkEntry px_dn [mkSet (PBytes (B "ipHostNumber")) [PBytes (B "1.2.3.4")]]])]. eexists.
  split; [right; right; right; left; reflexivity|]. split; vm_compute; reflexivity.
Qed.
Print Assumptions C100_octets_refuted.
(** A value with a line feed and a tab makes a record of its own, for another name. *)
Theorem C100_records_refuted : exists e v w, get_values ascii_lower (PStr (S_ "ipHostNumber")) e = Ok [PStr (v ++ [10] ++ w)] /\
  sent (p_trace (px_run [px_line ["HELO"; "1"]; px_A; IEntry 0 px_none; IFound 1 (Ok [e])])) =
    [join TAB [S_ "OK"; S_ "pdns"]; join TAB (map S_ ["DATA"; "www.example.com"; "IN"; "A"; "3600"; "-1"]) ++ [9] ++ v ++ [10] ++ w; S_ "END"] /\
  w = join TAB (map S_ ["DATA"; "bank.example"; "IN"; "A"; "3600"; "-1"; "6.6.6.6"]).
Proof.
  exists (mkEntry px_dn [mkSet (PStr (S_ "ipHostNumber")) [PStr (S_ "1.2.3.4" ++ [10] ++ join TAB (map S_ ["DATA"; "bank.example"; "IN"; "A"; "3600"; "-1"; "6.6.6.6"]))]]), (S_ "1.2.3.4"), (join TAB (map S_ ["DATA"; "bank.example"; "IN"; "A"; "3600"; "-1"; "6.6.6.6"])).
  split; [vm_compute; reflexivity|]. split; vm_compute; reflexivity.
Qed.
Print Assumptions C100_records_refuted.
(** Names are not compared without regard to case: the same question in capitals has no answer. *)
Theorem C100_case_refuted : exists name name' : string, ascii_lower (S_ name) = ascii_lower (S_ name') /\ px_search name <> [] /\ px_search name' = [].
Proof. exists "www.example.com"%string, "WWW.EXAMPLE.COM"%string. split; [vm_compute; reflexivity|]. split; [|vm_compute; reflexivity]. let l := eval vm_compute in (px_search "www.example.com") in assert (E : px_search "www.example.com" = l) by (vm_compute; reflexivity). rewrite E. discriminate. Qed.
Print Assumptions C100_case_refuted.
