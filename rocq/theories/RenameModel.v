(** Model of ldaptor/_scripts/rename.py: the tool that gives an entry another name.

    Simplifications:
    - the connection and the results of the bind and of the move are inputs, as decoded by the layers below
      (ClientModel, SyntaxModel); an input that the tool does not wait for is ignored;
    - what readline() and getpass() return, or raise, are inputs;
    - an exception that leaves console_script() is one event: Python then prints it and exits with 1. *)
From Verif Require Import Base Utf8Model DnModel.

(** What can be seen from outside *)
Inductive revent :=
| RRaised (x : exn)                      (** an exception leaves the tool before anything is sent *)
| RConnect (d : dn)                      (** 32: connect, for the server of this DN *)
| RAsk (binddn : str)                    (** 38: getpass *)
| RBind (d p : str)                      (** 39, 41: the bind request *)
| RBound                                 (** the bind succeeds *)
| RMove (entry newrdn superior : str)    (** ldapsyntax.py 367-373: the request, with deleteoldrdn=1 *)
| RMoved                                 (** the move succeeds *)
| RFail (x : exn)                        (** 22: "fail:" *)
| RStop.                                 (** 49: reactor.stop() *)
(** [typed]: what is typed at the prompt, if there is one *)
Inductive rin := MConnected (typed : res str) | MRefused (x : exn) | MBound (r : res unit) | MMoved (r : res unit).
Inductive rstate := RConnecting | RBinding | RMoving | ROver.
Record renamer := mkRenamer { r_state : rstate; r_exit : bool; r_trace : list revent }.

(** 77-83: the password from a file descriptor; 0 counts as none *)
Definition read_password (fd : option Z) (line : res str) : res (option str) :=
  match fd with
  | None => Ok None
  | Some n =>
      if n =? 0 then Ok None else
      do t <- line;
      match rev t with
      | [] => Err EIndex
      | c :: r => if c =? 10 then Ok (Some (rev r)) else Err EAssert
      end
  end.

Section Rename.
  Variable io : Z -> Z -> res Z.
  Variable binddn : option str.
  Variable fd : option Z.
  Variable line : res str.
  Variable from to : str.

  (** 77-85 and 28-29: the password, then the two names *)
  Definition arguments : res (option str * dn * dn) :=
    do pw <- read_password fd line;
    do f <- parse_dn io from;
    do t <- parse_dn io to;
    Ok (pw, f, t).
  (** 31-32: up to reactor.run() *)
  Definition rename_start : renamer :=
    match arguments with
    | Err x => mkRenamer ROver true [RRaised x]
    | Ok (_, f, _) => mkRenamer RConnecting false [RConnect f]
    end.
  (** 21-24, 48-49: error() and the stop *)
  Definition rename_fail (w : renamer) (es : list revent) (x : exn) : renamer :=
    mkRenamer ROver true (r_trace w ++ es ++ [RFail x; RStop]).
  (** 34-41: _bind *)
  Definition bind_as (pw : option str) (typed : res str) (w : renamer) : renamer :=
    match binddn with
    | Some (c :: b) =>
        match pw with
        | Some p => mkRenamer RBinding (r_exit w) (r_trace w ++ [RBind (c :: b) p])
        | None =>
            match typed with
            | Ok p => mkRenamer RBinding (r_exit w) (r_trace w ++ [RAsk (c :: b); RBind (c :: b) p])
            | Err x => rename_fail w [RAsk (c :: b)] x
            end
        end
    | _ => mkRenamer RBinding (r_exit w) (r_trace w ++ [RBind [] []])
    end.
  (** 12-15 with ldapsyntax.py 360-375: move; split()[0] of the empty name raises IndexError *)
  Definition move_entry (f t : dn) (w : renamer) : renamer :=
    match t with
    | [] => rename_fail w [RBound] EIndex
    | r :: s => mkRenamer RMoving (r_exit w) (r_trace w ++ [RBound; RMove (dn_text f) (rdn_text r) (dn_text s)])
    end.
  (** 45-49: the callbacks in turn *)
  Definition rename_step (w : renamer) (i : rin) : renamer :=
    match arguments with
    | Err _ => w
    | Ok (pw, f, t) =>
        match r_state w, i with
        | RConnecting, MConnected typed => bind_as pw typed w
        | RConnecting, MRefused x => rename_fail w [] x
        | RBinding, MBound (Ok _) => move_entry f t w
        | RBinding, MBound (Err x) => rename_fail w [] x
        | RMoving, MMoved (Ok _) => mkRenamer ROver (r_exit w) (r_trace w ++ [RMoved; RStop])
        | RMoving, MMoved (Err x) => rename_fail w [] x
        | _, _ => w
        end
    end.
  Definition rename_run (l : list rin) : renamer := fold_left rename_step l rename_start.
End Rename.
(** 52: sys.exit(exitStatus) *)
Definition rename_exit (w : renamer) : Z := if r_exit w then 1 else 0.
