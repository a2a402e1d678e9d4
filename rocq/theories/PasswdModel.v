(** Model of ldaptor/_scripts/passwd.py: the client that sets passwords, typed or generated.

    Simplifications:
    - what getpass, the generator of passwords and setPassword give, and when, is an input; a result for
      something that does not wait for one is ignored;
    - a DN of the command line is text; setPassword is one event here (SetPwModel has its inside);
    - failures that nobody handles are logged by Twisted, which is left out;
    - transport.loseConnection and reactor.stop raise nothing. *)
From Verif Require Import Base Utf8Model DnModel UtilModel ToolsModel.

(** What can be seen from outside *)
Inductive sevent :=
| SAskBind (dn : str)                       (** 17: the prompt for the password to bind with *)
| SBind (who : option (str * str))          (** 18, 20: bind(dn, pwd), or bind() *)
| SBound (r : res unit)                     (** its Deferred fires *)
| SAsk (k : nat) (dn : str)                 (** 31: the prompt for a new password *)
| SStart (k : nat)                          (** 34: the generator is started *)
| SGot (k : nat) (r : res (list str))       (** the Deferred of getPassword fires *)
| SSet (k : nat) (d : dn) (pw : str)        (** 65: setPassword *)
| SResult (k : nat) (r : res unit)          (** its Deferred fires *)
| SPrint (k : nat) (dn pw : str)            (** 59: print(dn, password) *)
| SFail (o : option nat) (x : exn)          (** 24: "fail:", for the bind or for a DN *)
| SPwgen (k : nat) (x : exn)                (** 75: "pwgen:" *)
| SRaised (x : exn)                         (** connectionMade or _handle_bind_success raises *)
| SClose                                    (** transport.loseConnection() *)
| SStop.                                    (** reactor.stop() *)

(** The Deferred of one DN *)
Inductive pending := Waiting (dn : str) | Setting (dn pw : str) | Finished.
(** [Running b]: the bind has been granted; [b]: the DeferredList exists *)
Inductive phase := NotYet | Binding | Running (listed : bool) | Over.
Record passwd := mkPasswd { w_phase : phase; w_items : list pending; w_exit : bool; w_trace : list sevent }.
(** 89: exitStatus = 0 *)
Definition passwd0 : passwd := mkPasswd NotYet [] false [].
(** What happens; [typed]: what getpass gives for the DN of a number, or,
    when passwords are generated, whether the generator of it can be started; [now]: the results that setPassword
    has at once *)
Inductive pwin :=
| IMade (typed : res str)
| IBound (r : res unit) (typed : nat -> res str) (now : nat -> option (res unit))
| IPassword (k : nat) (r : res (list str)) (now : nat -> option (res unit))
| IResult (k : nat) (r : res unit).

(** 102-105: parseArgs *)
Definition dn_list (binddn : str) (args : list str) : list str := match args with [] => [binddn] | _ => args end.
Fixpoint set_item (k : nat) (i : pending) (l : list pending) : list pending :=
  match l, k with
  | [], _ => []
  | _ :: r, O => i :: r
  | x :: r, S k => x :: set_item k i r
  end.
Definition finished (i : pending) : bool := match i with Finished => true | _ => false end.

Section Passwd.
  Variable io : Z -> Z -> res Z.          (** int() in the parser of DNs, as in DnModel *)
  Variable binddn : str.
  Variable bind_password : option str.
  Variable dns : list str.
  Variable generated : bool.

  (** 57-59 and 23-27: the end of setPassword; the last part: whether exitStatus becomes 1 *)
  Definition was_set (k : nat) (dn pw : str) (r : res unit) : pending * list sevent * bool :=
    match r with
    | Ok _ => (Finished, SResult k r :: (if generated then [SPrint k dn pw] else []), false)
    | Err x => (Finished, [SResult k r; SFail (Some k) x], true)
    end.
  (** 61-71: _got_password, and 73-76: _report_pwgen_error *)
  Definition got_password (k : nat) (dn : str) (r : res (list str)) (now : nat -> option (res unit)) : pending * list sevent * bool :=
    match r with
    | Err x => (Finished, SGot k r :: (match x with EUser 72 => [SPwgen k x] | _ => [] end), false)
    | Ok [pw] =>
        match parse_dn io dn with
        | Err _ => (Finished, [SGot k r], false)
        | Ok d =>
            match now k with
            | None => (Setting dn pw, [SGot k r; SSet k d pw], false)
            | Some u => let '(i, es, x) := was_set k dn pw u in (i, SGot k r :: SSet k d pw :: es, x)
            end
        end
    | Ok _ => (Finished, [SGot k r], false)
    end.
  (** 29-34: getPassword, and 39-44; an exception, of getpass or of starting the generator, is not caught *)
  Definition ask (k : nat) (dn : str) (typed : nat -> res str) (now : nat -> option (res unit)) : res (pending * list sevent * bool) :=
    match typed k with
    | Err x => Err x
    | Ok pw => Ok (if generated then (Waiting dn, [], false) else got_password k dn (Ok [pw]) now)
    end.
  (** 37-45: the loop over the DNs *)
  Fixpoint ask_all (k : nat) (l : list str) (typed : nat -> res str) (now : nat -> option (res unit)) : list pending * list sevent * bool * option exn :=
    match l with
    | [] => ([], [], false, None)
    | dn :: r =>
        let e0 := if generated then SStart k else SAsk k dn in
        match ask k dn typed now with
        | Err e => ([], [e0], false, Some e)
        | Ok (i, es, x) => let '(is, es', x', e) := ask_all (S k) r typed now in (i :: is, (e0 :: es) ++ es', x || x', e)
        end
    end.
  (** 46-49: the DeferredList fires when all have *)
  Definition check (w : passwd) : passwd :=
    match w_phase w with
    | Running true => if forallb finished (w_items w) then mkPasswd Over (w_items w) (w_exit w) (w_trace w ++ [SClose; SStop]) else w
    | _ => w
    end.
  Definition update (k : nat) (p : pending * list sevent * bool) (w : passwd) : passwd :=
    let '(i, es, x) := p in check (mkPasswd (w_phase w) (set_item k i (w_items w)) (w_exit w || x) (w_trace w ++ es)).
  (** 13-21: connectionMade *)
  Definition made (typed : res str) (w : passwd) : passwd :=
    match binddn with
    | [] => mkPasswd Binding [] (w_exit w) (w_trace w ++ [SBind None])
    | _ =>
        match bind_password, typed with
        | Some pw, _ => mkPasswd Binding [] (w_exit w) (w_trace w ++ [SBind (Some (binddn, pw))])
        | None, Ok pw => mkPasswd Binding [] (w_exit w) (w_trace w ++ [SAskBind binddn; SBind (Some (binddn, pw))])
        | None, Err x => mkPasswd (Running false) [] (w_exit w) (w_trace w ++ [SAskBind binddn; SRaised x])
        end
    end.
  (** 36-50: _handle_bind_success, and 52-55: _handle_bind_fail *)
  Definition bound (r : res unit) (typed : nat -> res str) (now : nat -> option (res unit)) (w : passwd) : passwd :=
    match r with
    | Err x => mkPasswd Over [] true (w_trace w ++ [SBound r; SFail None x; SClose; SStop])
    | Ok _ =>
        match ask_all 0 dns typed now with
        | (is, es, x, None) => check (mkPasswd (Running true) is (w_exit w || x) (w_trace w ++ SBound r :: es))
        | (is, es, x, Some e) => mkPasswd (Running false) is (w_exit w || x) (w_trace w ++ SBound r :: es ++ [SRaised e])
        end
    end.
  Definition step (w : passwd) (i : pwin) : passwd :=
    match i, w_phase w with
    | IMade typed, NotYet => made typed w
    | IBound r typed now, Binding => bound r typed now w
    | IPassword k r now, Running _ =>
        match nth_error (w_items w) k with
        | Some (Waiting dn) => if generated then update k (got_password k dn r now) w else w
        | _ => w
        end
    | IResult k r, Running _ =>
        match nth_error (w_items w) k with
        | Some (Setting dn pw) => update k (was_set k dn pw r) w
        | _ => w
        end
    | _, _ => w
    end.
  Definition run (l : list pwin) : passwd := fold_left step l passwd0.
  (** 141: sys.exit(exitStatus) *)
  Definition exit_status (w : passwd) : Z := if w_exit w then 1 else 0.
End Passwd.
