(** Model of ldaptor/_scripts/ldap2pdns.py: PdnsPipeProtocol, the backend that answers the questions of a
    name server from the directory.

    Simplifications:
    - lines are text, and sendLine always works. As the script stands it is given octets, see
      [data_received];
    - what the Deferreds of ldapEntryFactory and of LDAPEntry.search give, and when, is an input. A
      Deferred that fires for something that nobody waits for is left out: such events are ignored, and so
      are lines behind the end of the input, which Twisted does not deliver;
    - the list of a line is put into self.work before the line is handled, not after it (219). What is
      handled in between does not look behind the first list that waits. *)
From Verif Require Import Base Utf8Model DnModel EntryModel FilterTextModel LdifTreeModel UtilModel ToolsModel.

(** 17-21: TooMuchQueued *)
Definition ETooMuch : exn := EUser 80.

(** s.split(c, n), for one character *)
Fixpoint split_n (c : Z) (n : nat) (s : str) : list str :=
  match n with
  | O => [s]
  | S m =>
      (fix go (t : str) : list str :=
         match t with
         | [] => [[]]
         | x :: r => if x =? c then [] :: split_n c m r
                     else match go r with p :: ps => (x :: p) :: ps | [] => [[x]] end
         end) s
  end.
(** s[:-len(t)], for a [t] that is not empty *)
Definition cut_end (t s : str) : str := firstn (length s - length t) s.

(** What question_A and question_PTR keep in their closures: the name asked for and the class; the name
    of the host, or the address, that they search for *)
Inductive question := QA (qname qclass cn : str) | QPTR (qname qclass ip : str).
(** What a line comes to: an answer, or a question to the directory *)
Inductive reply := Now (ls : list str) | Ask (q : question).

(** What happens: *)
Inductive ptev :=
| PLine (n : nat) (s : str)                          (** line [n] comes *)
| PFetch                                             (** 65: ldapEntryFactory is called *)
| PRaised (n : nat) (x : exn)                        (** 65: it raises, for line [n] *)
| PEntry (c : nat) | PNoEntry (x : exn)              (** its Deferred gives the entry of connection [c], or fails *)
| PLost (c : nat)                                    (** 249-251: connection [c] is lost *)
| PRefused (n : nat) (x : exn)                       (** line [n] fails before it has searched *)
| PSearch (n : nat) (f : tf) (attrs : list str)      (** 122, 171: the search for line [n] *)
| PFound (n : nat) (r : res (list entry))            (** its Deferred fires *)
| PEnd                                               (** the end of the input *)
| PSent (l : str)                                    (** 86: sendLine *)
| PStop                                              (** 83: reactor.stop() *)
| PExc (x : exn).                                    (** an exception that nobody handles *)

(** An element of self.work: the list of line [n], with its Deferred; a list of lines; [ExitSentinel] *)
Inductive item := WWait (n : nat) | WDone (ls : list str) | WExit.

(** 24-37: the protocol. [p_waiting]: the lines whose Deferreds are in waitingForLdapEntry, with what
    their callbacks know (none have been added if the factory raised); [p_pending]: the Deferred of the
    factory has not fired; [p_search]: the lines whose search has not ended. *)
Record pdns := mkPdns {
  p_main : bool; p_entry : option nat; p_fetching : bool; p_pending : bool;
  p_waiting : list (nat * option question); p_search : list (nat * question);
  p_work : list item; p_lines : nat; p_ended : bool; p_trace : list ptev }.
Definition pdns_0 : pdns := mkPdns false None false false [] [] [] 0 false [].

Definition emit (es : list ptev) (p : pdns) : pdns :=
  mkPdns (p_main p) (p_entry p) (p_fetching p) (p_pending p) (p_waiting p) (p_search p) (p_work p) (p_lines p) (p_ended p) (p_trace p ++ es).
Definition set_work (w : list item) (p : pdns) : pdns :=
  mkPdns (p_main p) (p_entry p) (p_fetching p) (p_pending p) (p_waiting p) (p_search p) w (p_lines p) (p_ended p) (p_trace p).
Definition set_search (l : list (nat * question)) (p : pdns) : pdns :=
  mkPdns (p_main p) (p_entry p) (p_fetching p) (p_pending p) (p_waiting p) l (p_work p) (p_lines p) (p_ended p) (p_trace p).
Definition set_waiting (l : list (nat * option question)) (p : pdns) : pdns :=
  mkPdns (p_main p) (p_entry p) (p_fetching p) (p_pending p) l (p_search p) (p_work p) (p_lines p) (p_ended p) (p_trace p).
(** ldapEntry, ldapEntryFetchInProgress, and whether the factory's Deferred is awaited *)
Definition set_fetch (e : option nat) (f pend : bool) (p : pdns) : pdns :=
  mkPdns (p_main p) e f pend (p_waiting p) (p_search p) (p_work p) (p_lines p) (p_ended p) (p_trace p).

(** What ldapEntryFactory does when it is called: it gives a Deferred that fires later, or has fired,
    or it raises *)
Inductive made := MLater | MNow (r : res nat) | MRaise (x : exn).
(** What comes. [soon]: what searches give that have ended at once, by line *)
Definition soonest := nat -> option (res (list entry)).
Inductive pevent :=
| ILine (s : str) (m : made) (soon : soonest)
| IEntry (c : nat) (soon : soonest)
| INoEntry (x : exn)
| IFound (n : nat) (r : res (list entry))
| ILost (c : nat)
| IEnd.

(** 72-87: _doWork: what is left of self.work, and what happens. (An exception in it would go to
    [failed] or leave connectionLost; it cannot happen.) *)
Fixpoint do_work (w : list item) : list item * list ptev :=
  match w with
  | [] => ([], [])
  | WWait _ :: _ => (w, [])
  | WDone [] :: _ => (w, [PExc EIndex])
  | WDone ls :: r => let (w', es) := do_work r in (w', map PSent ls ++ es)
  | WExit :: r => match r with [] => let (w', es) := do_work r in (w', PStop :: es) | _ => (r, [PExc EAssert]) end
  end.
Definition work (p : pdns) : pdns :=
  let (w, es) := do_work (p_work p) in emit es (set_work w p).
(** who[:] = ls *)
Fixpoint put_item (n : nat) (ls : list str) (w : list item) : list item :=
  match w with
  | [] => []
  | WWait m :: r => if Nat.eqb m n then WDone ls :: r else WWait m :: put_item n ls r
  | i :: r => i :: put_item n ls r
  end.
(** 89-91: completed(result, who) *)
Definition completed (n : nat) (ls : list str) (p : pdns) : pdns := work (set_work (put_item n ls (p_work p)) p).

Section Pdns.
  Variable lower : str -> str.              (** str.lower() *)
  Variable depth : nat.                     (** the recursion limit, see FilterTextModel *)
  Variable domain : str.                    (** self.dnsDomain *)
  Variable argv0 : str.                     (** sys.argv[0] *)
  Variable repr : str -> str.               (** repr() of text *)
  Variable traceback : exn -> list str.     (** getTraceback().splitlines() of a failure *)

  (** 93-97: failed(result, who) *)
  Definition failure (x : exn) : list str := map (fun l => S_ "LOG" ++ 9 :: l) (traceback x) ++ [S_ "FAIL"].
  Definition failed (n : nat) (x : exn) (p : pdns) : pdns := completed n (failure x) p.

  (** 106-112, 138-156: the loops of _gotA and _gotPTR over the values of one entry; a value that is
      octets is a TypeError *)
  Definition data_line (qname qclass qtype v : str) : str := join_on 9 [S_ "DATA"; qname; qclass; qtype; S_ "3600"; S_ "-1"; v].
  Fixpoint value_lines (f : str -> str) (vs : list pyval) : res (list str) :=
    match vs with
    | [] => Ok []
    | PStr v :: r => do ls <- value_lines f r; Ok (f v :: ls)
    | PBytes _ :: _ => Err EType
    end.
  Fixpoint entry_lines (k : str) (f : str -> str) (es : list entry) : res (list str) :=
    match es with
    | [] => Ok []
    | e :: r =>
        do vs <- get_values lower (PStr k) e;
        do ls <- value_lines f vs;
        do ls' <- entry_lines k f r;
        Ok (ls ++ ls')
    end.
  (** 106-112: _gotA; 138-156: _gotPTR *)
  Definition got (q : question) (es : list entry) : res (list str) :=
    do ls <- (match q with
              | QA qname qclass _ => entry_lines (S_ "ipHostNumber") (fun ip => data_line qname qclass (S_ "A") ip) es
              | QPTR qname qclass _ => entry_lines (S_ "cn") (fun cn => data_line qname qclass (S_ "PTR") (cn ++ S_ "." ++ domain ++ S_ ".")) es
              end);
    Ok (ls ++ [S_ "END"]).

  (** 114-119: question_A, up to the search *)
  Definition question_A (qname qclass : str) : reply :=
    if negb (endswith (S_ "." ++ domain) qname) then Now [S_ "END"]
    else Ask (QA qname qclass (cut_end (S_ "." ++ domain) qname)).
  (** 158-168: question_PTR *)
  Definition question_PTR (qname qclass : str) : reply :=
    if negb (endswith (S_ ".in-addr.arpa") qname) then Now [S_ "END"]
    else
      let octets := split_dots (cut_end (S_ ".in-addr.arpa") qname) in
      if negb (Nat.eqb (length octets) 4) then Now [S_ "END"]
      else Ask (QPTR qname qclass (join_dots (rev octets))).
  (** 132-136: question_ANY *)
  Definition question_ANY (qname qclass : str) : reply :=
    if endswith (S_ ".in-addr.arpa") qname then question_PTR qname qclass else question_A qname qclass.
  (** 178-189: do_main_Q *)
  Definition main_Q (rest : str) : reply :=
    match split_n 9 4 rest with
    | [qname; qclass; qtype; ident; ip] =>
        if negb (str_eqb qclass (S_ "IN")) then Now [S_ "LOG" ++ 9 :: S_ "Invalid qclass: " ++ repr qclass; S_ "END"]
        else if str_eqb qtype (S_ "A") then question_A qname qclass
        else if str_eqb qtype (S_ "ANY") then question_ANY qname qclass
        else if str_eqb qtype (S_ "PTR") then question_PTR qname qclass
        else Now [S_ "END"]
    | _ => Now [S_ "LOG" ++ 9 :: S_ "Invalid question: " ++ repr rest; S_ "END"]
    end.
  (** 199-217: lineReceived, which method it calls (99-104 do_start_HELO, 178 do_main_Q, 191
      do_main_AXFR, 194 do_main_PING), and what that says; the state afterwards *)
  Definition handle (main : bool) (line : str) : bool * reply :=
    let (type, rest) := match split_n 9 1 line with [t; r] => (t, r) | _ => (line, []) end in
    let unknown := (main, Now [S_ "LOG" ++ 9 :: S_ "Unknown command " ++ repr type ++ S_ " in state " ++ (if main then S_ "main" else S_ "start"); S_ "END"]) in
    if main then
      if str_eqb type (S_ "Q") then (main, main_Q rest)
      else if str_eqb type (S_ "AXFR") then (main, Now [S_ "LOG" ++ 9 :: S_ "Refusing AXFR"; S_ "END"])
      else if str_eqb type (S_ "PING") then (main, Now [S_ "END"])
      else unknown
    else
      if str_eqb type (S_ "HELO") then
        if str_eqb rest (S_ "1") then (true, Now [S_ "OK" ++ 9 :: argv0]) else (main, Now [S_ "FAIL"])
      else unknown.

  (** 123, 172: the filter and the attributes *)
  Definition filter_text (q : question) : str :=
    match q with
    | QA _ _ cn => S_ "(&(cn=" ++ cn ++ S_ ")(ipHostNumber=*))"
    | QPTR _ _ ip => S_ "(ipHostNumber=" ++ ip ++ S_ ")"
    end.
  Definition search_attrs (q : question) : list str :=
    match q with QA _ _ _ => [S_ "ipHostNumber"] | QPTR _ _ _ => [S_ "cn"] end.
  (** 129, 175: the search has ended *)
  Definition found (n : nat) (q : question) (r : res (list entry)) (p : pdns) : pdns :=
    let p := emit [PFound n r] p in
    match r with
    | Err x => failed n x p
    | Ok es => match got q es with Ok ls => completed n ls p | Err x => failed n x p end
    end.
  (** 121-127, 170-173: _cb(e); LDAPEntry.search reads the filter first *)
  Definition search (soon : soonest) (n : nat) (q : question) (p : pdns) : pdns :=
    match parse_filter depth (PStr (filter_text q)) with
    | Err x => failed n x (emit [PRefused n x] p)
    | Ok f =>
        let p := emit [PSearch n f (search_attrs q)] p in
        match soon n with
        | None => set_search (p_search p ++ [(n, q)]) p
        | Some r => found n q r p
        end
    end.
  (** 43-45: the loop of _cbLdapEntry, over what waitingForLdapEntry has *)
  Fixpoint call_all (soon : soonest) (ws : list (nat * option question)) (p : pdns) : pdns :=
    match ws with
    | [] => p
    | (n, q) :: r =>
        let p := set_waiting r p in
        call_all soon r (match q with Some q => search soon n q p | None => p end)
    end.
  (** 50-51: the loop of _ebLdapEntry *)
  Fixpoint fail_all (x : exn) (ws : list (nat * option question)) (p : pdns) : pdns :=
    match ws with
    | [] => p
    | (n, q) :: r => fail_all x r (match q with Some _ => failed n x (emit [PRefused n x] p) | None => p end)
    end.
  (** 47-52: _ebLdapEntry *)
  Definition eb_entry (x : exn) (p : pdns) : pdns :=
    let p := emit [PNoEntry x] (set_fetch (p_entry p) false false p) in
    fail_all x (p_waiting p) (set_waiting [] p).
  (** 39-45: _cbLdapEntry; an exception in it goes to _ebLdapEntry *)
  Definition cb_entry (soon : soonest) (c : nat) (p : pdns) : pdns :=
    let p := set_fetch (p_entry p) false false p in
    match p_entry p with
    | Some _ => eb_entry EAssert p
    | None =>
        let p := emit [PEntry c] (set_fetch (Some c) false false p) in
        call_all soon (p_waiting p) p
    end.
  (** the last of waitingForLdapEntry has got no callbacks *)
  Fixpoint forget_last (ws : list (nat * option question)) : list (nat * option question) :=
    match ws with [] => [] | [(n, _)] => [(n, None)] | w :: r => w :: forget_last r end.
  (** 54-70: getLdapEntry, and the callbacks that question_A and question_PTR add *)
  Definition get_entry (m : made) (soon : soonest) (n : nat) (q : question) (p : pdns) : pdns :=
    match p_entry p with
    | Some _ => search soon n q p
    | None =>
        if (10 <? length (p_waiting p))%nat then failed n ETooMuch (emit [PRefused n ETooMuch] p)
        else
          let p := set_waiting (p_waiting p ++ [(n, Some q)]) p in
          if p_fetching p then p
          else
            let p := emit [PFetch] (set_fetch (p_entry p) true true p) in
            match m with
            | MLater => p
            | MNow (Ok c) => cb_entry soon c p
            | MNow (Err x) => eb_entry x p
            | MRaise x =>
                failed n x (emit [PRaised n x; PRefused n x] (set_waiting (forget_last (p_waiting p)) (set_fetch (p_entry p) true false p)))
            end
    end.
  (** 198-223: lineReceived *)
  Definition line_received (s : str) (m : made) (soon : soonest) (p : pdns) : pdns :=
    let n := p_lines p in
    let (main, r) := handle (p_main p) s in
    let p := mkPdns main (p_entry p) (p_fetching p) (p_pending p) (p_waiting p) (p_search p)
               (p_work p ++ [WWait n]) (S n) (p_ended p) (p_trace p ++ [PLine n s]) in
    match r with
    | Now ls => completed n ls p
    | Ask q => get_entry m soon n q p
    end.
  (** 225-227: connectionLost of the input *)
  Definition input_lost (p : pdns) : pdns :=
    work (mkPdns (p_main p) (p_entry p) (p_fetching p) (p_pending p) (p_waiting p) (p_search p)
            (p_work p ++ [WExit]) (p_lines p) true (p_trace p ++ [PEnd])).
  (** 229-232: lostLDAPClient *)
  Definition lost_client (c : nat) (p : pdns) : pdns :=
    let p := emit [PLost c] p in
    match p_entry p with
    | Some d => if Nat.eqb d c then set_fetch None (p_fetching p) (p_pending p) p else emit [PExc EAssert] p
    | None => emit [PExc EAssert] p
    end.

  (** The question whose search runs for a line *)
  Fixpoint asked (n : nat) (l : list (nat * question)) : option question :=
    match l with [] => None | (m, q) :: r => if Nat.eqb m n then Some q else asked n r end.
  Definition step (p : pdns) (e : pevent) : pdns :=
    match e with
    | ILine s m soon => if p_ended p then p else line_received s m soon p
    | IEntry c soon => if p_pending p then cb_entry soon c p else p
    | INoEntry x => if p_pending p then eb_entry x p else p
    | IFound n r =>
        match asked n (p_search p) with
        | Some q => found n q r (set_search (filter (fun x => negb (Nat.eqb (fst x) n)) (p_search p)) p)
        | None => p
        end
    | ILost c => lost_client c p
    | IEnd => if p_ended p then p else input_lost p
    end.
  Definition run (evs : list pevent) : pdns := fold_left step evs pdns_0.

  (** 25 and twisted.protocols.basic.LineReceiver.dataReceived: octets come, are put behind the buffer,
      which is octets, and this is split at the delimiter, which is text. Nothing is handed to
      lineReceived. *)
  Definition data_received (buffer data : bytes) : bytes * res unit :=
    (buffer ++ data, match buffer ++ data with [] => Ok tt | _ => Err EType end).
End Pdns.
