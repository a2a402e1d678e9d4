(** Specification side of the proxy: predicates on what is observed, in order. *)
From Verif Require Import Base BerModel LdapModel LdapSpec ServerModel ClientModel ProxyModel.

(** [l] is obtained from [m] by leaving out elements. *)
Inductive subseq {A} : list A -> list A -> Prop :=
| S_nil m : subseq [] m
| S_take x l m : subseq l m -> subseq (x :: l) (x :: m)
| S_skip x l m : subseq l m -> subseq l (x :: m).

(** The requests that are to be passed on: all but StartTLS, which the proxy answers. *)
Definition is_starttls (op : obj) : bool :=
  match op with OExtReq _ (VBytes n) _ => bytes_eqb n (B "1.3.6.1.4.1.1466.20037") | _ => false end.
Definition received (t : list pev) : list (pv * obj * ctrls) :=
  flat_map (fun e => match e with PGot id op cs => if is_starttls op then [] else [(id, op, cs)] | _ => [] end) t.
(** What reached the server, with the request it was sent for *)
Definition forwarded (t : list pev) : list (pv * obj) :=
  flat_map (fun e => match e with PForward _ op _ id => [(id, op)] | _ => [] end) t.
(** The requests for which handleBeforeForwardRequest was called, in order *)
Definition asked (t : list pev) : list (pv * obj * ctrls) := flat_map (fun e => match e with PAsk _ id op cs => [(id, op, cs)] | _ => [] end) t.
(** The results of these calls, in the order in which they were given: the number of the call, the
    message id of the request, the result *)
Definition tolds (t : list pev) : list (nat * pv * hook) := flat_map (fun e => match e with PTold n id h => [(n, id, h)] | _ => [] end) t.
(** The requests that these results want to be passed on *)
Definition wants (id : pv) (h : hook) : list (pv * obj) := match h with HForward op _ => [(id, op)] | _ => [] end.
Definition wanted (l : list (nat * pv * hook)) : list (pv * obj) := flat_map (fun x => wants (snd (fst x)) (snd x)) l.
(** What a hook that gives its results at once makes of a request *)
Definition made (before : obj -> ctrls -> hook) (r : pv * obj * ctrls) : list (pv * obj) :=
  match r with (id, op, cs) => wants id (before op cs) end.
Definition prompt (before : obj -> ctrls -> hook) : Prop := forall op cs, before op cs <> HLater.
(** Hooks that do not answer requests themselves *)
Definition passes (h : hook) : Prop := match h with HBypass _ => False | _ => True end.
Definition passing (e : pevent) : Prop := match e with VTold _ h => passes h | _ => True end.
(** A request that can be encoded, with message ids below [N] *)
Definition encodable (N : Z) (op : obj) : Prop := forall i, 0 <= i < N -> exists w, toWire (OMessage 0x10 (VInt i) op None) = Ok w.
(** Nothing fails and nobody leaves *)
Definition calm (e : pevent) : Prop :=
  match e with VDown | VTls false | VServerLost | VLost => False | _ => True end.

(** *** Responses *)
(** The responses to message [b] in order of arrival: the numbers of the calls *)
Definition arrivals (b : Z) (t : list pev) : list nat :=
  flat_map (fun e => match e with PArrived b' n _ => if b' =? b then [n] else [] | _ => [] end) t.
(** What the call gave *)
Definition gave (n : nat) (r : option (option obj)) (t : list pev) : Prop := In (PHook n r) t.
(** What was written to the client for message [b] *)
Definition replies (b : Z) (t : list pev) : list (pv * obj) :=
  flat_map (fun e => match e with PReply id v (Some b') => if b' =? b then [(id, v)] else [] | _ => [] end) t.
(** A response that can be written to the client that sent request [id] *)
Definition writable (id : pv) (v : obj) : Prop := exists w, toWire (OMessage 0x10 id v None) = Ok w.
(** The results that are to be written: those that are not None *)
Definition vals (D : list (nat * option obj)) : list obj := flat_map (fun x => match snd x with Some v => [v] | None => [] end) D.
(** The responses to message [b] *)
Definition answers (b : Z) (t : list pev) : list obj :=
  flat_map (fun e => match e with PArrived b' _ v => if b' =? b then [v] else [] | _ => [] end) t.
(** The hooks that ProxyBase itself has *)
Definition default_before (op : obj) (cs : ctrls) : hook := HForward op cs.
Definition default_after (v op : obj) (cs : ctrls) : ahook := ANow (Some v).
(** What the client is sent *)
Definition written (t : list pev) : list (pv * obj) := flat_map (fun e => match e with PReply id v _ => [(id, v)] | _ => [] end) t.
(** The responses that end an operation: those to a search and to a bind *)
Definition ends (v : obj) : Prop := match v with OResult KSearchDone _ _ _ _ _ | OResult KBindResp _ _ _ _ _ => True | _ => False end.

(** *** StartTLS of the client, and a server that cannot be reached *)
(** The answer to StartTLS, and its code (RFC 4511): success once if TLS is configured, then
    operationsError; unavailable otherwise *)
Definition tls_reply (code : Z) : obj := response_obj (ExtendedResponse (mkResult code [] []) None None).
Definition tls_code (options on : bool) : Z := if options then if on then 1 else 0 else 52.
(** The message ids of the bind requests *)
Definition binds (l : list (pv * obj * ctrls)) : list pv := flat_map (fun r => match r with (id, OBindReq _ _ _ _, _) => [id] | _ => [] end) l.
(** Answering one with unavailable *)
Definition bind_unavailable : obj := response_obj (BindResponse (mkResult 52 [] []) None).
Definition unavailable (id : pv) : pev := PReply id bind_unavailable None.
(** Events while the connection to the server is being made *)
Definition meanwhile (e : pevent) : Prop :=
  match e with VMade | VRequest _ | VResponse _ | VTold _ _ | VLater _ _ | VOther _ => True | _ => False end.
