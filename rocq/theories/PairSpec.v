(** Specification side of a client and a server at the two ends of a connection. *)
From Verif Require Import Base BerModel LdapModel LdapSpec DnModel EntryModel ServerModel ClientModel LateModel PairModel.

(** The user makes their requests and controls with the constructors of pureldap.py. *)
Definition lawful (a : useract) : Prop :=
  match a with
  | USend _ op cs => exists q c, op = request_obj q /\ cs = option_map (map control_args) c
  | UStartTLS => True
  end.
Definition lawful_user (choose : list ClientModel.tev -> option useract) : Prop := forall t a, choose t = Some a -> lawful a.
Definition lawful_event (e : pevent) : Prop := match e with PUser a => lawful a | _ => True end.

(** A message of the client, as the user means it: its id, the request and the controls *)
Definition meant : Type := Z * request * option (list control).
Definition mid (m : meant) : Z := fst (fst m).
Definition sends (m : meant) (w : bytes) : Prop := toWire (message_obj (mid m) (request_obj (snd (fst m))) (snd m)) = Ok w.
(** As it is read *)
Definition as_read (m : meant) : option meant := Some (mid m, seen_request (snd (fst m)), snd m).
(** What the server has taken *)
Definition takes (e : LateModel.tev) : list obj :=
  match e with LateModel.TGot _ id req cs _ => [OMessage 0x10 id req cs] | _ => [] end.
Definition taken (t : list LateModel.tev) : list obj := flat_map takes t.
(** What the server has written, and what the client has heard *)
Definition told (t : list LateModel.tev) : list (pv * obj) :=
  flat_map (fun e => match e with TWrite _ id op _ => [(id, op)] | _ => [] end) t.
Definition heard (t : list ClientModel.tev) : list obj :=
  flat_map (fun e => match e with ClientModel.TGot i v c => [OMessage 0x10 (VInt i) v c] | _ => [] end) t.

(** A user who keeps to the rules: searches and arguments go with a handler, nothing is abandoned; a handler says of a result that it
    is the last, and of an entry that it is not. *)
Definition is_search (op : obj) : Prop := match op with OSearchReq _ _ _ _ _ _ _ _ _ => True | _ => False end.
Definition has_handler (k : sendkind) : bool := match k with KMulti h _ | KMultiEx h _ => h | _ => false end.
Definition has_args (k : sendkind) : bool := match k with KMulti _ a | KMultiEx _ a => a | _ => false end.
Definition modest (a : useract) : Prop :=
  match a with
  | USend k op _ => (is_search op -> has_handler k = true) /\ (has_args k = true -> has_handler k = true) /\ forall t i, op <> OInt KAbandon t i
  | UStartTLS => True
  end.
Definition modest_user (choose : list ClientModel.tev -> option useract) : Prop := forall t a, choose t = Some a -> modest a.
Definition modest_event (e : pevent) : Prop := match e with PUser a => modest a | _ => True end.
Definition an_entry (v : obj) : bool := match v with OSearchEntry _ _ _ => true | _ => false end.
Definition tells_last (verdict : list ClientModel.tev -> res bool) : Prop :=
  forall t a i v c b, t = a ++ ClientModel.TGot i v c :: b -> (forall i' v' c', ~ In (ClientModel.TGot i' v' c') b) -> verdict t = Ok (negb (an_entry v)).
(** A directory that does not call back for a search that has ended *)
Definition tidy_directory (run : list pevent -> pair) (es : list pevent) : Prop :=
  forall a n e b, es = a ++ PEntry n e :: b -> forall r, ~ In (LateModel.TFired n r) (l_trace (p_server (run a))).
