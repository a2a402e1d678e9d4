(** Specification side of the service-binding proxy: the LDAP conversation with the backend, in rounds. *)
From Verif Require Import Base Utf8Model DnModel LdapModel LdapSpec ServerModel ClientModel SvcModel.

(** Ask for the entries of service [name] that belong to [owner] and are valid at [now]. *)
Definition search_for (base owner name now : bytes) : obj :=
  request_obj (Search base 2 0 0 0 false
    (FAnd [FEq (B "objectClass") (B "serviceSecurityObject"); FEq (B "owner") owner; FEq (B "cn") name;
           FOr [FNot (FPresent (B "validFrom")); FLe (B "validFrom") now]; FOr [FNot (FPresent (B "validUntil")); FGe (B "validUntil") now]]) [B "1.1"]).
Definition bind_as (name pw : bytes) : obj := request_obj (Bind 3 name (Simple pw)).
Definition bind_result (code : Z) (v : obj) : Prop := exists t d m c, v = OResult KBindResp t (VInt code) d m c.

Section Rounds.
  Variable io : Z -> Z -> res Z.
  (** Entries, with their DNs, and references *)
  Inductive search_parts : list obj -> list dn -> Prop :=
  | Sp_nil : search_parts [] []
  | Sp_entry ms ds t name ats d : search_parts ms ds -> to_dn io (VBytes name) = Ok d -> search_parts (ms ++ [OSearchEntry t (VBytes name) ats]) (ds ++ [d])
  | Sp_ref ms ds t l : search_parts ms ds -> search_parts (ms ++ [OSearchRef t l]) ds.
  (** The responses to a search that is taken to have succeeded, with the DNs of the entries found. The
      code 4 is sizeLimitExceeded (C46). *)
  Inductive answers_search : list obj -> list dn -> Prop :=
  | As ms ds t code m c : search_parts ms ds -> code = 0 \/ code = 4 -> answers_search (ms ++ [OResult KSearchDone t (VInt code) (VBytes []) m c]) ds.
  (** One round: a service, what is said to the backend and by it. It did not help: no entry, or one
      whose password is refused, or the search itself is refused with invalidCredentials. *)
  Variable base owner : bytes.
  Variable pw : option bytes.             (** the password, if it is a simple bind *)
  Inductive useless (name : bytes) : list bev -> Prop :=
  | Us_none now ms : answers_search ms [] -> useless name (BSearchFor (search_for base owner name now) :: map BCame ms)
  | Us_refused now ms d b p v : answers_search ms [d] -> utf8_encode (dn_text d) = Ok b -> pw = Some p -> bind_result 49 v ->
      useless name (BSearchFor (search_for base owner name now) :: map BCame ms ++ [BBindAs (bind_as b p); BCame v])
  | Us_49 now ms ds t d m c : search_parts ms ds -> useless name (BSearchFor (search_for base owner name now) :: map BCame (ms ++ [OResult KSearchDone t (VInt 49) d m c])).
  (** The backend has accepted the password for the one entry found. *)
  Inductive accepted (name : bytes) : list bev -> Prop :=
  | Ac now ms d b p v : answers_search ms [d] -> utf8_encode (dn_text d) = Ok b -> pw = Some p -> bind_result 0 v ->
      accepted name (BSearchFor (search_for base owner name now) :: map BCame ms ++ [BBindAs (bind_as b p); BCame v]).
  (** Rounds for these services, in this order *)
  Inductive rounds : list bytes -> list bev -> Prop :=
  | Ro_nil : rounds [] []
  | Ro_more ns t n r : rounds ns t -> useless n r -> rounds (ns ++ [n]) (t ++ r).
End Rounds.
(** The client's own bind is passed on, and what comes is passed back. *)
Definition passed_back (req : obj) (vs : list obj) : list bev := BForwarded req :: flat_map (fun v => [BCame v; BReply v]) vs.

(** All of it. [req] is the client's request; the proxy's own replies are a success that names the
    owner, invalidCredentials, or an error. *)
Section Conversation.
  Variable io : Z -> Z -> res Z.
  Variable base owner : bytes.
  Variable pw : option bytes.
  Variable services : list bytes.
  Variable fallback : bool.
  Variable req : obj.
  (** A round that is not over, or is broken off. *)
  Inductive unfinished : list bytes -> list bev -> Prop :=
  | Un_none ns : unfinished ns []
  | Un_search n ns now ms : unfinished (n :: ns) (BSearchFor (search_for base owner n now) :: map BCame ms)
  | Un_bind n ns now ms d b p vs : answers_search io ms [d] -> utf8_encode (dn_text d) = Ok b -> pw = Some p ->
      unfinished (n :: ns) (BSearchFor (search_for base owner n now) :: map BCame ms ++ BBindAs (bind_as b p) :: map BCame vs).
  Definition error_reply (v : obj) : Prop := exists c m, c <> 0 /\ v = OResult KBindResp (class_tag KBindResp) (VInt c) (VBytes []) m VNone.
  Inductive ended : list bev -> Prop :=
  | En_success done n rest t r v : services = done ++ n :: rest -> rounds io base owner pw done t -> accepted io base owner pw n r ->
      v = OResult KBindResp (class_tag KBindResp) (VInt 0) (VBytes owner) (VBytes []) VNone -> ended (t ++ r ++ [BReply v])
  | En_refused t v : fallback = false -> rounds io base owner pw services t ->
      v = OResult KBindResp (class_tag KBindResp) (VInt 49) (VBytes []) (VBytes []) VNone -> ended (t ++ [BReply v])
  | En_passed t vs : fallback = true -> rounds io base owner pw services t -> ended (t ++ passed_back req vs)
  | En_error done rest t r v : services = done ++ rest -> rounds io base owner pw done t -> unfinished rest r -> error_reply v -> ended (t ++ r ++ [BReply v]).
  Inductive conversation : list bev -> Prop :=
  | Cv_going done rest t r : services = done ++ rest -> rounds io base owner pw done t -> unfinished rest r -> conversation (t ++ r)
  | Cv_ended t : ended t -> conversation t.
End Conversation.

(** What follows a round that did not help *)
Definition goes_on (base owner : bytes) (services : list bytes) (fallback : bool) (req : obj) (e : bev) : Prop :=
  (exists n now, In n services /\ e = BSearchFor (search_for base owner n now)) \/ (fallback = true /\ e = BForwarded req) \/
  (fallback = false /\ e = BReply (OResult KBindResp (class_tag KBindResp) (VInt 49) (VBytes []) (VBytes []) VNone)).
(** The password of a simple bind *)
Definition the_pw (auth : bauth) : option bytes := match auth with ASimple (VBytes p) => Some p | _ => None end.
(** The backend stays and sends nothing but responses. *)
Definition heard (e : bevent) : Prop := match e with BMsg _ _ v => is_response v = true | BLost _ => False end.
(** [q] is a search for service [n]. *)
Definition asks (base owner : bytes) (q : obj) (n : bytes) : Prop := exists now, q = search_for base owner n now.
(** The names asked for, in order *)
Definition searches (t : list bev) : list obj := flat_map (fun e => match e with BSearchFor q => [q] | _ => [] end) t.
Definition replies (t : list bev) : list obj := flat_map (fun e => match e with BReply v => [v] | _ => [] end) t.
