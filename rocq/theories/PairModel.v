(** An LDAPClient (ldapclient.py) and an LDAPServer (ldapserver.py) at the two ends of a connection, as
    ClientModel and LateModel have them: what either writes to its transport comes to the other's
    dataReceived, in order, in pieces of any size, any time later.

    Simplifications:
    - connectionMade comes to both ends at once; either end may lose the connection at any time, and then
      what is on its way to it is lost;
    - dataReceived of the server (ldapserver.py 32-42) is taken apart: bytes are added to the buffer, and
      each round of the loop is an event of its own, so that Deferreds of the directory may fire between;
    - a connection whose dataReceived raised may go on: Twisted would end it, which may happen at any time here. *)
From Verif Require Import Base BerModel LdapModel DnModel EntryModel ServerModel ClientModel LateModel.

(** The two ends; the server's buffer (ldapserver.py 17); how many bytes have come to the server, and to
    the client *)
Record pair := mkPair { p_client : cstate; p_server : late; p_buffer : bytes; p_up : nat; p_down : nat }.

(** What the ends have written, each message on its own: ldapclient.py 90, ldapserver.py 58 *)
Definition client_writes (c : cstate) : list bytes :=
  flat_map (fun e => match e with TWritten w => [w] | _ => [] end) (c_trace c).
Definition server_writes (s : late) : list bytes :=
  flat_map (fun e => match e with TWrite _ _ _ b => [b] | _ => [] end) (l_trace s).

(** What happens: the connection is made; the user of the client calls it; the reactor calls it (241-258), and
    message ids are used elsewhere; up to [n] bytes come to the server or to the client; the server takes a message
    out of its buffer; the directory's Deferreds fire and its searches call back; an end loses the connection. *)
Inductive pevent :=
| PMade
| PUser (a : useract)
| PDue
| POther (n : nat)
| PUp (n : nat)
| PTake (names : ent -> dn)
| PDown (n : nat)
| PFired (n : nat) (r : dres) (names : ent -> dn)
| PEntry (n : nat) (e : entry)
| PClientLost
| PServerLost.

Section Pair.
  Variable reps : list ClientModel.tev -> nat.                 (** the user of the client, see ClientModel *)
  Variable choose : list ClientModel.tev -> option useract.
  Variable verdict : list ClientModel.tev -> res bool.
  Variable lower : str -> str.                                 (** the server, see LateModel *)
  Variable io : Z -> Z -> res Z.
  Variable oc_first : bool.
  Variable text : exn -> bytes.
  Variable root : ent.

  Local Notation cstep := (ClientModel.step reps choose verdict).
  Local Notation sstep := (lstep lower io oc_first text root).
  Definition to_client (e : cevent) (p : pair) : pair :=
    mkPair (cstep (p_client p) e) (p_server p) (p_buffer p) (p_up p) (p_down p).
  Definition to_server (e : levent) (p : pair) : pair :=
    mkPair (p_client p) (sstep (p_server p) e) (p_buffer p) (p_up p) (p_down p).
  (** The next bytes of those that were written *)
  Definition segment (n at_ : nat) (ws : list bytes) : bytes := firstn n (skipn at_ (concat ws)).

  Definition pstep (p : pair) (e : pevent) : pair :=
    match e with
    | PMade => to_server LateModel.EMade (to_client ClientModel.EMade p)
    | PUser a => to_client (EUser a) p
    | PDue => to_client EDue p
    | POther n => to_client (EOther n) p
    (** ldapserver.py 33 *)
    | PUp n =>
        match l_conn (p_server p) with
        | CUp =>
            let seg := segment n (p_up p) (client_writes (p_client p)) in
            mkPair (p_client p) (p_server p) (p_buffer p ++ seg) (p_up p + length seg) (p_down p)
        | _ => p
        end
    (** ldapserver.py 34-42: a round of the loop. An exception of berDecodeObject other than of too few bytes,
        and an object that is no message at all (None), leave the message unhandled. *)
    | PTake names =>
        match l_conn (p_server p), decode ctx_top (p_buffer p) with
        | CUp, Ok (o, n) =>
            let p := mkPair (p_client p) (p_server p) (zdrop n (p_buffer p)) (p_up p) (p_down p) in
            match o with Some o => to_server (EMessage o names) p | None => p end
        | _, _ => p
        end
    | PDown n =>
        match c_connected (p_client p) with
        | Some true =>
            let seg := segment n (p_down p) (server_writes (p_server p)) in
            let p := to_client (EData seg) p in
            mkPair (p_client p) (p_server p) (p_buffer p) (p_up p) (p_down p + length seg)
        | _ => p
        end
    | PFired n r names => to_server (EFired n r names) p
    | PEntry n e => to_server (EEntry n e) p
    | PClientLost => to_client ClientModel.ELost p
    | PServerLost => to_server LateModel.ELost p
    end.
  Definition pair_0 (next : Z) : pair := mkPair (c0 next) late_0 [] 0 0.
  Definition prun (next : Z) (es : list pevent) : pair := fold_left pstep es (pair_0 next).
End Pair.
