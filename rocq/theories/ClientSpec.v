(** Specification side of the LDAP client: predicates on what is observed, in order. *)
From Verif Require Import Base BerModel LdapModel ClientModel.

(** Requests that were sent; requests that were completed: their Deferred fired or failed, or their
    handler said that this was the last response. *)
Definition sents (t : list tev) : list Z := flat_map (fun e => match e with TSent i _ _ => [i] | _ => [] end) t.
Definition completes (e : tev) : list Z :=
  match e with TFired i _ => [i] | TFailed i => [i] | TCalled i _ (Ok true) => [i] | _ => [] end.
Definition completions (t : list tev) : list Z := flat_map completes t.
Definition outstanding (t : list tev) (i : Z) : Prop := In i (sents t) /\ ~ In i (completions t).

(** The last message that was received. *)
Definition got (e : tev) : list (Z * obj) := match e with TGot i v _ => [(i, v)] | _ => [] end.
Definition last_got (t : list tev) (i : Z) (v : obj) : Prop :=
  exists a b c, t = a ++ TGot i v c :: b /\ flat_map got b = [].

(** A success response to StartTLS: an extended response with code 0 and no name, or the right one. *)
Definition tls_ok (v : obj) : Prop :=
  exists tag dn msg name resp, v = OExtResp tag (VInt 0) dn msg name resp /\
    (name = VNone \/ name = VBytes (B "1.3.6.1.4.1.1466.20037")).
(** A StartTLS request *)
Definition tls_request (op : obj) : Prop := exists tag, op = OExtReq tag (VBytes (B "1.3.6.1.4.1.1466.20037")) VNone.

(** Requests that get a response: not unbind and abandon (RFC 4511 4.3, 4.11) *)
Definition expects (op : obj) : Prop := (forall tag, op <> ONull KUnbind tag) /\ (forall tag id, op <> OInt KAbandon tag id).
(** A registered request is one that gets a response, and it is written at once, under its own id,
    unless encoding it raises. *)
Definition written (i : Z) (op : obj) (b : list tev) : Prop := expects op /\
  exists r, (exists controls w, toWire (OMessage (0x10) (VInt i) op controls) = Ok w /\ b = TWritten w :: r) \/
            (exists controls e, toWire (OMessage (0x10) (VInt i) op controls) = Err e /\ b = TRaised e :: r).

(** The messages that were looked at; the bytes that arrived *)
Definition gots (t : list tev) : list (Z * obj * option (list (pv * pv * pv))) :=
  flat_map (fun e => match e with TGot i v c => [(i, v, c)] | _ => [] end) t.
Definition arrived (es : list cevent) : bytes := flat_map (fun e => match e with EData b => b | _ => [] end) es.
(** The classes of responses (RFC 4511 4.1.9, 4.5.2, 4.12) *)
Definition a_response (v : obj) : Prop :=
  (exists t us, v = OSearchRef t us) \/ (exists k t c d m x, v = OResult k t c d m x) \/ (exists t c d m n r, v = OExtResp t c d m n r) \/ exists t d a, v = OSearchEntry t d a.
(** The controls that go with a request: send_multiResponse has no parameter for them. *)
Definition sent_controls (k : sendkind) (cs : option (list (pv * pv * pv))) := match k with KMulti _ _ => None | _ => cs end.
(** What is kept of a request: whether its caller wants the controls of responses, whether there is a handler, and whether there are arguments for it. *)
Definition kept (k : sendkind) : slot :=
  match k with KSend | KNoResponse => mkSlot false false false false | KMulti h a => mkSlot false h a false | KMultiEx h a => mkSlot true h a false end.
