(** Specification for the tool that asks servers for their naming contexts: what one server does for itself,
    and what of it can be seen. *)
From Verif Require Import Base Utf8Model ContextsModel.

(** The server that an event is about *)
Definition nabout (e : nevent) : option nat :=
  match e with
  | NConnect k _ | NBind k | NSearch k | NPrint k _ _ | NEnd k | NError k _ | NRaised k _ => Some k
  | NUsage | NStop => None
  end.
Definition nview (k : nat) (tr : list nevent) : list nevent := filter (fun e => match nabout e with Some j => Nat.eqb j k | None => false end) tr.
(** What happened at a server, of all that happened *)
Definition at_server (k : nat) (l : list (nat * nin)) : list nin := map snd (filter (fun p => Nat.eqb (fst p) k) l).

(** The ways of one server, which are all that it and Twisted can do (connect or be refused, answer the bind,
    answer the search, once each), from what happened there to what is seen; [true]: its Deferred has fired *)
Section Spec.
  Variable repr : bytes -> str.
  Variable k : nat.
  Variable host : str.
  Definition lines (r : res (list bytes)) : list nevent :=
    match r with Ok l => map (fun c => NPrint k host (repr c)) l | Err x => [NRaised k x] end.
  Inductive way : list nin -> list nevent -> bool -> Prop :=
  | y_waiting : way [] [NConnect k host] false
  | y_failed : forall x, way [JRefused (Some x)] [NConnect k host; NError k x] true
  | y_refused : way [JRefused None] [NConnect k host; NRaised k ENoCurrent] false
  | y_connected : way [JConnected] [NConnect k host; NBind k] false
  | y_unbound : forall x, way [JConnected; JBound (Err x)] [NConnect k host; NBind k; NRaised k x] false
  | y_searching : forall u rs, way (JConnected :: JBound (Ok u) :: map JEntry rs) (NConnect k host :: NBind k :: NSearch k :: flat_map lines rs) false
  | y_ended : forall u rs v, way (JConnected :: JBound (Ok u) :: map JEntry rs ++ [JEnd (Ok v)]) (NConnect k host :: NBind k :: NSearch k :: flat_map lines rs ++ [NEnd k]) true
  | y_broken : forall u rs x, way (JConnected :: JBound (Ok u) :: map JEntry rs ++ [JEnd (Err x)]) (NConnect k host :: NBind k :: NSearch k :: flat_map lines rs ++ [NError k x]) true.
End Spec.
