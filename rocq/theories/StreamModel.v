(** Model of the receive loops: LDAPClient.dataReceived (ldapclient.py 54-64) and
    BaseLDAPServer.dataReceived (ldapserver.py 32-42). *)
From Verif Require Import Base BerModel LdapModel.

(** What a connection is after a dataReceived call: waiting with a buffer, or stopped because
    an exception left dataReceived (Twisted then drops the connection). *)
Inductive conn := Waiting (buffer : bytes) | Stopped (e : exn).

Section Loop.
  (** [check]: the test of the loop's "if not o" (client) or "if o is None" (server).
      [handle]: self.handle(o); it may raise. *)
  Variable check : obj -> res bool.
  Variable handle : obj -> res unit.

  (** One dataReceived loop over the buffer: the objects handed to [handle], and the connection.
      [fuel] bounds the iterations; every iteration consumes bytes. *)
  Fixpoint recv_loop (fuel : nat) (buffer : bytes) : list obj * conn :=
    match fuel with
    | O => ([], Stopped EFuel)
    | S f =>
        match decode ctx_top buffer with
        | Err EInsufficient => ([], Waiting buffer)
        | Err e => ([], Stopped e)
        | Ok (o, n) =>
            let buffer := zdrop n buffer in
            match o with
            | None => ([], Waiting buffer)
            | Some o =>
                match check o with
                | Err e => ([], Stopped e)
                | Ok false => ([], Waiting buffer)
                | Ok true =>
                    match handle o with
                    | Err e => ([o], Stopped e)
                    | Ok _ => let (l, c) := recv_loop f buffer in (o :: l, c)
                    end
                end
            end
        end
    end.

  (** dataReceived(recd). *)
  Definition dataReceived (c : conn) (recd : bytes) : list obj * conn :=
    match c with
    | Stopped e => ([], Stopped e)
    | Waiting buffer => recv_loop (S (length (buffer ++ recd))) (buffer ++ recd)
    end.

  (** A sequence of dataReceived calls. *)
  Fixpoint receive (c : conn) (segments : list bytes) : list obj * conn :=
    match segments with
    | [] => ([], c)
    | s :: r =>
        let (l, c1) := dataReceived c s in
        let (l2, c2) := receive c1 r in (l ++ l2, c2)
    end.
End Loop.

(** ldapserver.py 40: "if o is None". *)
Definition server_check (o : obj) : res bool := Ok true.
(** ldapclient.py 62: "if not o": truth of an object is its wire length (pureber.py 117-118). *)
Definition client_check (o : obj) : res bool :=
  do w <- toWire o; Ok (match w with [] => false | _ => true end).
