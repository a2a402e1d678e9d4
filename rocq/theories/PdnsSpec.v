(** What the backend of PdnsModel is to do: said in terms of the lines that come, of what the directory
    gives, and of the lines that are sent. *)
From Verif Require Import Base Utf8Model DnModel EntryModel FilterTextModel PdnsModel.

Definition TAB : str := [9].
Definition no_tabs (s : str) : Prop := ~ In 9 s.
Definition no_dots (s : str) : Prop := ~ In 46 s.
Definition arpa : str := S_ ".in-addr.arpa".

(** A line that is a question: Q, the name, IN, the type, the identifier, and the address of who asks *)
Definition question_line (line qname qclass qtype : str) : Prop :=
  exists ident ip, no_tabs qname /\ no_tabs qclass /\ no_tabs qtype /\ no_tabs ident /\
    line = S_ "Q" ++ TAB ++ qname ++ TAB ++ qclass ++ TAB ++ qtype ++ TAB ++ ident ++ TAB ++ ip.
(** A question to the directory: for a host of the domain, or for an address *)
Inductive asks (domain : str) : str -> question -> Prop :=
| asks_A : forall line qname qtype host,
    question_line line qname (S_ "IN") qtype ->
    (qtype = S_ "A" \/ (qtype = S_ "ANY" /\ forall h, qname <> h ++ arpa)) ->
    qname = host ++ S_ "." ++ domain -> asks domain line (QA qname (S_ "IN") host)
| asks_PTR : forall line qname qtype a b c d,
    question_line line qname (S_ "IN") qtype -> (qtype = S_ "PTR" \/ qtype = S_ "ANY") ->
    no_dots a -> no_dots b -> no_dots c -> no_dots d ->
    qname = d ++ S_ "." ++ c ++ S_ "." ++ b ++ S_ "." ++ a ++ arpa ->
    asks domain line (QPTR qname (S_ "IN") (a ++ S_ "." ++ b ++ S_ "." ++ c ++ S_ "." ++ d)).

(** The command of a line, and what is behind it *)
Definition command (line type rest : str) : Prop :=
  no_tabs type /\ (line = type ++ TAB ++ rest \/ (line = type /\ rest = [])).
Definition hello : str := S_ "HELO" ++ TAB ++ S_ "1".
Definition four_tabs (s : str) : Prop := exists a b c d e, s = a ++ TAB ++ b ++ TAB ++ c ++ TAB ++ d ++ TAB ++ e.
(** The lines that are answered without the directory; [main]: a hello has come before *)
Inductive immediate (domain argv0 : str) (repr : str -> str) : bool -> str -> list str -> Prop :=
| now_hello : immediate domain argv0 repr false hello [S_ "OK" ++ TAB ++ argv0]
| now_other_version : forall line rest, command line (S_ "HELO") rest -> rest <> S_ "1" ->
    immediate domain argv0 repr false line [S_ "FAIL"]
| now_unknown : forall (main : bool) line type rest, command line type rest ->
    ~ In type (if main then [S_ "Q"; S_ "AXFR"; S_ "PING"] else [S_ "HELO"]) ->
    immediate domain argv0 repr main line
      [S_ "LOG" ++ TAB ++ S_ "Unknown command " ++ repr type ++ S_ " in state " ++ (if main then S_ "main" else S_ "start"); S_ "END"]
| now_axfr : forall line rest, command line (S_ "AXFR") rest ->
    immediate domain argv0 repr true line [S_ "LOG" ++ TAB ++ S_ "Refusing AXFR"; S_ "END"]
| now_ping : forall line rest, command line (S_ "PING") rest -> immediate domain argv0 repr true line [S_ "END"]
| now_bad_question : forall line rest, command line (S_ "Q") rest -> ~ four_tabs rest ->
    immediate domain argv0 repr true line [S_ "LOG" ++ TAB ++ S_ "Invalid question: " ++ repr rest; S_ "END"]
| now_bad_class : forall line qname qclass qtype, question_line line qname qclass qtype -> qclass <> S_ "IN" ->
    immediate domain argv0 repr true line [S_ "LOG" ++ TAB ++ S_ "Invalid qclass: " ++ repr qclass; S_ "END"]
| now_nothing : forall line qname qtype, question_line line qname (S_ "IN") qtype -> (forall q, ~ asks domain line q) ->
    immediate domain argv0 repr true line [S_ "END"].

(** ** What has happened *)
(** The lines that came, with their numbers; the lines that were sent *)
Definition lines (tr : list ptev) : list (nat * str) := flat_map (fun e => match e with PLine n s => [(n, s)] | _ => [] end) tr.
Definition sent (tr : list ptev) : list str := flat_map (fun e => match e with PSent l => [l] | _ => [] end) tr.
Definition greeted (tr : list ptev) (n : nat) : Prop := exists m, (m < n)%nat /\ In (m, hello) (lines tr).
(** Line [n] is a question to the directory *)
Definition about (domain : str) (tr : list ptev) (n : nat) (q : question) : Prop :=
  exists s, In (n, s) (lines tr) /\ greeted tr n /\ asks domain s q.

(** The answer to a question: one line for each value, and the end *)
Definition asked_for (q : question) : str := match q with QA _ _ _ => S_ "ipHostNumber" | QPTR _ _ _ => S_ "cn" end.
Definition record (domain : str) (q : question) (v : str) : str :=
  match q with
  | QA qname qclass _ => S_ "DATA" ++ TAB ++ qname ++ TAB ++ qclass ++ TAB ++ S_ "A" ++ TAB ++ S_ "3600" ++ TAB ++ S_ "-1" ++ TAB ++ v
  | QPTR qname qclass _ => S_ "DATA" ++ TAB ++ qname ++ TAB ++ qclass ++ TAB ++ S_ "PTR" ++ TAB ++ S_ "3600" ++ TAB ++ S_ "-1" ++ TAB ++ v ++ S_ "." ++ domain ++ S_ "."
  end.
Definition has_values (lower : str -> str) (k : str) (e : entry) (vs : list pyval) : Prop := get_values lower (PStr k) e = Ok vs.
Definition records (lower : str -> str) (domain : str) (q : question) (es : list entry) (ls : list str) : Prop :=
  exists vss, Forall2 (fun e vs => has_values lower (asked_for q) e (map PStr vs)) es vss /\
    ls = map (record domain q) (concat vss) ++ [S_ "END"].
(** One of the values is octets *)
Definition octets (lower : str -> str) (q : question) (es : list entry) : Prop :=
  exists e vs b, In e es /\ has_values lower (asked_for q) e vs /\ In (PBytes b) vs.
(** The answer if something failed: the traceback and FAIL *)
Definition fails (traceback : exn -> list str) (x : exn) : list str := map (fun l => S_ "LOG" ++ TAB ++ l) (traceback x) ++ [S_ "FAIL"].

(** The answer of line [n], as far as it is known *)
Inductive answer (lower : str -> str) (domain argv0 : str) (repr : str -> str) (traceback : exn -> list str) (tr : list ptev) (n : nat) : list str -> Prop :=
| answer_now : forall (main : bool) s ls, In (n, s) (lines tr) -> (main = true <-> greeted tr n) ->
    immediate domain argv0 repr main s ls -> answer lower domain argv0 repr traceback tr n ls
| answer_found : forall q es ls, about domain tr n q -> In (PFound n (Ok es)) tr -> records lower domain q es ls ->
    answer lower domain argv0 repr traceback tr n ls
| answer_octets : forall q es, about domain tr n q -> In (PFound n (Ok es)) tr -> octets lower q es ->
    answer lower domain argv0 repr traceback tr n (fails traceback EType)
| answer_failed : forall q x, about domain tr n q -> In (PFound n (Err x)) tr ->
    answer lower domain argv0 repr traceback tr n (fails traceback x)
| answer_refused : forall q x, about domain tr n q -> In (PRefused n x) tr ->
    answer lower domain argv0 repr traceback tr n (fails traceback x).

(** The lines of the input, up to its end *)
Fixpoint input_lines (evs : list pevent) : list str :=
  match evs with
  | [] => []
  | ILine s _ _ :: r => s :: input_lines r
  | IEnd :: _ => []
  | _ :: r => input_lines r
  end.
(** A connection is asked for, and neither has it come nor has it failed *)
Definition awaited (tr : list ptev) : Prop :=
  exists a b, tr = a ++ PFetch :: b /\ forall e, In e b -> match e with PEntry _ | PNoEntry _ | PRaised _ _ => False | _ => True end.
(** The filter of a question, as a text: the name or the address is put in as it is *)
Definition text_of (q : question) : str :=
  match q with
  | QA _ _ host => S_ "(&(cn=" ++ host ++ S_ ")(ipHostNumber=*))"
  | QPTR _ _ ip => S_ "(ipHostNumber=" ++ ip ++ S_ ")"
  end.
(** What it is meant to be: an equality, and for a host also an address *)
Definition subject (q : question) : str := match q with QA _ _ host => host | QPTR _ _ ip => ip end.
Definition meant (q : question) : tf :=
  match q with
  | QA _ _ host => TAnd [TCmp CEq (S_ "cn") host; TPresent (S_ "ipHostNumber")]
  | QPTR _ _ ip => TCmp CEq (S_ "ipHostNumber") ip
  end.
(** Why a question fails before its search *)
Definition why_refused (depth : nat) (tr : list ptev) (n : nat) (q : question) (x : exn) : Prop :=
  x = ETooMuch \/ parse_filter depth (PStr (text_of q)) = Err x \/ In (PRaised n x) tr \/ In (PNoEntry x) tr.
