(** Specification side of the merging server: predicates on what is observed, in order. *)
From Verif Require Import Base BerModel LdapModel ServerModel ClientModel ProxyModel ProxySpec MergerModel.

Definition pv_dec (a b : pv) : {a = b} + {a <> b}. Proof. decide equality; [apply Z.eq_dec|apply (list_eq_dec Byte.byte_eq_dec)]. Defined.
(** The responses that end an operation; a successful one; the responses on the way *)
Definition fin (v : obj) : bool := match v with OResult KSearchDone _ _ _ _ _ | OResult KBindResp _ _ _ _ _ => true | _ => false end.
Definition succeeded (v : obj) : Prop := exists k tag dn msg creds, v = OResult k tag (VInt 0) dn msg creds.
Definition on_the_way (v : obj) : bool := match v with OSearchEntry _ _ _ | OSearchRef _ _ => true | _ => false end.
Definition of {A} (id id' : pv) (l : list A) : list A := if pv_dec id id' then l else [].

(** What the backends sent for request [id]: all, and only backend [j]; what the client was sent *)
Definition finals (id : pv) (t : list mev) : list obj :=
  flat_map (fun e => match e with MArrived _ _ i v => of i id (if fin v then [v] else []) | _ => [] end) t.
Definition finals_from (j : nat) (id : pv) (t : list mev) : list obj :=
  flat_map (fun e => match e with MArrived k _ i v => if Nat.eqb k j then of i id (if fin v then [v] else []) else [] | _ => [] end) t.
Definition outs (id : pv) (t : list mev) : list obj :=
  flat_map (fun e => match e with MReply i v => of i id (if fin v then [v] else []) | _ => [] end) t.
Definition entries_in (id : pv) (t : list mev) : list obj :=
  flat_map (fun e => match e with MArrived _ _ i v => of i id (if on_the_way v then [v] else []) | _ => [] end) t.
Definition entries_out (id : pv) (t : list mev) : list obj :=
  flat_map (fun e => match e with MReply i v => of i id (if on_the_way v then [v] else []) | _ => [] end) t.
(** How often the client has used [id] *)
Definition uses (id : pv) (t : list mev) : nat :=
  length (flat_map (fun e => match e with MGot i _ => of i id [tt] | _ => [] end) t).
(** Requests that are to go to all backends; those that have gone to backend [j] *)
Definition merged_kind (op : obj) : bool := match op with OBindReq _ _ _ _ | OSearchReq _ _ _ _ _ _ _ _ _ | OCmpReq _ _ _ | OInt KAbandon _ _ | ONull KUnbind _ => true | _ => false end.
Definition wanted (t : list mev) : list (pv * obj) :=
  flat_map (fun e => match e with MGot i op => if merged_kind op then [(i, op)] else [] | _ => [] end) t.
Definition sent_to (j : nat) (t : list mev) : list (pv * obj) :=
  flat_map (fun e => match e with MForward k _ op i => if Nat.eqb k j then [(i, op)] else [] | _ => [] end) t.

(** A response that stands for [l]: it is one of them, and is successful exactly if one of them is *)
Definition stands_for (l : list obj) (v : obj) : Prop := In v l /\ (succeeded v <-> Exists succeeded l).
(** [r] answers [l], [n] at a time *)
Inductive chunks (n : nat) : list obj -> list obj -> Prop :=
| Ch_nil : chunks n [] []
| Ch_more d r l v : chunks n d r -> length l = n -> stands_for l v -> chunks n (d ++ l) (r ++ [v]).
(** All responses can be written to the client. *)
Definition all_written (t : list mev) : Prop := forall j b id v, In (MArrived j b id v) t -> writable id v.
Definition client_stays (e : mevent) : Prop := match e with MLost => False | _ => True end.
Definition servers_stay (e : mevent) : Prop := match e with MServerLost _ => False | _ => True end.
(** Requests that are refused, and the result code of a response *)
Definition refused_op (op : obj) : Prop := match op with OModReq _ _ _ | OAddReq _ _ _ | OStr KDelReq _ _ | OModDNReq _ _ _ _ _ | OExtReq _ _ _ => True | _ => False end.
Definition code_of (v : obj) : pv := match v with OResult _ _ c _ _ _ | OExtResp _ c _ _ _ _ => c | _ => VNone end.
(** All that was written to the client for [id] *)
Definition told_all (id : pv) (t : list mev) : list obj := flat_map (fun e => match e with MReply i v => of i id [v] | _ => [] end) t.
