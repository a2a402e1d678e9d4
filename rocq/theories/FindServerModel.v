(** Model of ldaptor/_scripts/find_server.py: the tool that asks the DNS which servers have the trees named on
    the command line.

    Simplifications:
    - what the resolver of Twisted finds, and when, is an input: the sections of the answer, or a failure; it
      comes after main() has asked for all names; an answer to a question that was answered is ignored;
    - [upper] is str.upper(), [dec] what %d gives, [io] as in DnModel; the text of a target is an input;
    - the traceback of an exception that leaves main() is one event. *)
From Verif Require Import Base Utf8Model DnModel.

(** twisted.names.dns: a Record_SRV, and a record of an answer, whose payload is one or is not *)
Record srv := mkSrv { s_priority : Z; s_weight : Z; s_target : str; s_port : Z }.
Inductive rr := RSrv (s : srv) | ROther.
Definition answers := list (list rr).

(** What can be seen from outside; the number is that of the DN on the command line *)
Inductive fevent :=
| FUsage                          (** 56-58: without DNs *)
| FLookup (k : nat) (name : str)  (** 45: lookupService *)
| FPrint (k : nat) (line : str)   (** 12-21: one line *)
| FError (k : nat) (x : exn)      (** 32: "ERROR:" *)
| FRaised (k : nat) (x : exn)     (** 42: the DN cannot be read, and main() ends *)
| FStop.                          (** 50: reactor.stop(), by way of callLater *)

Section Find.
  Variable upper : str -> str.
  Variable io : Z -> Z -> res Z.
  Variable dec : Z -> str.

  (** 12-21: the line of a record *)
  Definition srv_line (dn : str) (s : srv) : str :=
    dn ++ [9] ++ S_ "pri=" ++ dec (s_priority s) ++ S_ " weight=" ++ dec (s_weight s) ++ S_ " " ++ s_target s ++ S_ ":" ++ dec (s_port s).
  (** 8-24: printAnswer, the inner loop and the outer *)
  Fixpoint print_list (k : nat) (dn : str) (l : list rr) : list fevent :=
    match l with
    | [] => []
    | RSrv s :: r => FPrint k (srv_line dn s) :: print_list k dn r
    | ROther :: r => print_list k dn r
    end.
  Fixpoint print_answer (k : nat) (dn : str) (a : answers) : list fevent :=
    match a with
    | [] => []
    | l :: r => print_list k dn l ++ print_answer k dn r
    end.
  (** 45: the name that is asked for; "%s" % None is "None" *)
  Definition lookup_name (domain : option str) : str :=
    S_ "_ldap._tcp." ++ match domain with Some t => t | None => S_ "None" end.
  (** 41-48: the loop of main(): what is seen, and whether an exception left it *)
  Fixpoint ask (k : nat) (dns : list str) : list fevent * bool :=
    match dns with
    | [] => ([], false)
    | t :: r =>
        match parse_dn io t with
        | Err x => ([FRaised k x], true)
        | Ok d => let p := ask (S k) r in (FLookup k (lookup_name (getDomainName upper d)) :: fst p, snd p)
        end
    end.
  (** [f_waiting]: the questions without an answer; [f_over]: main() was left by an exception, or not called *)
  Record found := mkFound { f_waiting : list nat; f_over : bool; f_exit : bool; f_trace : list fevent }.
  (** 37-49 and 55-60: console_script and main() up to reactor.run(). After an exception Python exits with 1. *)
  Definition find_start (dns : list str) : found :=
    match dns with
    | [] => mkFound [] true false [FUsage]
    | _ => let p := ask 0 dns in
           if snd p then mkFound [] true true (fst p) else mkFound (seq 0 (length dns)) false false (fst p)
    end.
  (** 46-47 and 30-34: the callbacks of one question; 49-50: the DeferredList fires with the last *)
  Definition find_step (dns : list str) (w : found) (i : nat * res answers) : found :=
    let '(k, r) := i in
    if f_over w || negb (existsb (Nat.eqb k) (f_waiting w)) then w else
    match nth_error dns k with
    | None => w
    | Some dn =>
        let rest := filter (fun j => negb (Nat.eqb j k)) (f_waiting w) in
        mkFound rest false (f_exit w || match r with Ok _ => false | Err _ => true end)
          (f_trace w ++ match r with Ok a => print_answer k dn a | Err x => [FError k x] end ++ match rest with [] => [FStop] | _ => [] end)
    end.
  Definition find_run (dns : list str) (l : list (nat * res answers)) : found := fold_left (find_step dns) l (find_start dns).
  (** 52: sys.exit(exitStatus) *)
  Definition find_exit (w : found) : Z := if f_exit w then 1 else 0.
End Find.
