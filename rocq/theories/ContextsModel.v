(** Model of ldaptor/_scripts/namingcontexts.py: the tool that asks several servers at once which parts of the
    tree they have.

    Simplifications:
    - what a server does, and when, is an input, as decoded by the client below (ClientModel); an input that
      the state of its server does not wait for is ignored;
    - an exception in a callback of the client is logged by Twisted, which is left out; that the connection is
      then closed, and the search fails with it, is a later input;
    - [repr] is what format() gives for octets. *)
From Verif Require Import Base Utf8Model.

(** What can be seen from outside; the number is that of the server on the command line *)
Inductive nevent :=
| NUsage                                   (** 68-70: without servers *)
| NConnect (k : nat) (host : str)          (** 57: connectTCP *)
| NBind (k : nat)                          (** 10: bind() *)
| NSearch (k : nat)                        (** 20-25: the search *)
| NPrint (k : nat) (host context : str)    (** 15: one line *)
| NEnd (k : nat)                           (** the Deferred of the server fires with a result *)
| NError (k : nat) (x : exn)               (** 46: it fires with a failure, "ERROR:" is printed *)
| NRaised (k : nat) (x : exn)              (** an exception or a failure that nobody handles *)
| NStop.                                   (** 60: reactor.stop() *)
Inductive nstate := NConnecting | NBinding | NSearching | NDone | NStuck.
(** What happens at one server; [current]: the exception that is being handled when the connection fails, for
    errback(None) (39) takes that one, and raises if there is none *)
Inductive nin :=
| JConnected
| JRefused (current : option exn)
| JBound (r : res unit)
| JEntry (r : res (list bytes))            (** an entry: its naming contexts, or KeyError *)
| JEnd (r : res unit).                     (** the end of the search *)
(** twisted.internet.error: NoCurrentExceptionError *)
Definition ENoCurrent : exn := EUser 103.

Section Contexts.
  Variable repr : bytes -> str.
  Variable servers : list str.

  (** 8-26 and 38-39: one server; what it becomes, what is seen, whether exitStatus becomes 1 *)
  Definition one (k : nat) (host : str) (s : nstate) (i : nin) : nstate * list nevent * bool :=
    match s, i with
    | NConnecting, JConnected => (NBinding, [NBind k], false)
    | NConnecting, JRefused None => (NStuck, [NRaised k ENoCurrent], false)
    | NConnecting, JRefused (Some x) => (NDone, [NError k x], true)
    | NBinding, JBound (Ok _) => (NSearching, [NSearch k], false)
    | NBinding, JBound (Err x) => (NStuck, [NRaised k x], false)
    | NSearching, JEntry (Ok l) => (NSearching, map (fun c => NPrint k host (repr c)) l, false)
    | NSearching, JEntry (Err x) => (NSearching, [NRaised k x], false)
    | NSearching, JEnd (Ok _) => (NDone, [NEnd k], false)
    | NSearching, JEnd (Err x) => (NDone, [NError k x], true)
    | _, _ => (s, [], false)
    end.
  Record contexts := mkContexts { c_states : list nstate; c_exit : bool; c_trace : list nevent }.
  Definition ndone (s : nstate) : bool := match s with NDone => true | _ => false end.
  Fixpoint set_state (k : nat) (s : nstate) (l : list nstate) : list nstate :=
    match l, k with
    | [], _ => []
    | _ :: r, O => s :: r
    | x :: r, S k => x :: set_state k s r
    end.
  Fixpoint connects (k : nat) (l : list str) : list nevent :=
    match l with [] => [] | h :: r => NConnect k h :: connects (S k) r end.
  (** 51-58: main, and 66-72: console_script *)
  Definition start : contexts :=
    match servers with
    | [] => mkContexts [] false [NUsage]
    | _ => mkContexts (map (fun _ => NConnecting) servers) false (connects 0 servers)
    end.
  (** 59-60: the DeferredList fires when the last Deferred does *)
  Definition step (w : contexts) (ki : nat * nin) : contexts :=
    let '(k, i) := ki in
    match nth_error servers k, nth_error (c_states w) k with
    | Some host, Some s =>
        let '(s', es, x) := one k host s i in
        let states := set_state k s' (c_states w) in
        mkContexts states (c_exit w || x)
          (c_trace w ++ es ++ (if negb (ndone s) && forallb ndone states then [NStop] else []))
    | _, _ => w
    end.
  Definition run (l : list (nat * nin)) : contexts := fold_left step l start.
  (** 62: sys.exit(exitStatus) *)
  Definition exit_status (w : contexts) : Z := if c_exit w then 1 else 0.
End Contexts.
