(** C60: the service-binding proxy. *)
From Verif Require Import Base BaseFacts Utf8Model DnModel DnSpec LdapModel LdapSpec ServerModel ClientModel ProxyModel SyntaxModel SvcModel SvcSpec SvcProofs.

(** A proxy and a bind request it is given. [v_dn] is the base DN of its configuration. *)
Record setup := mkV {
  v_lower : str -> str; v_io : Z -> Z -> res Z; v_text : exn -> bytes;
  v_services : list bytes; v_fallback : bool; v_dn : dn;
  v_tag : Z; v_version : Z; v_owner : bytes; v_auth : bauth; v_controls : option (list (pv * pv * pv)) }.
Definition v_req (u : setup) : obj := OBindReq (v_tag u) (VInt (v_version u)) (VBytes (v_owner u)) (v_auth u).
(** What is seen when these events come *)
Definition seen (u : setup) (now : bytes) (up : bool) (es : list bevent) : list bev :=
  b_trace (b_run (v_lower u) (v_io u) (v_text u) (v_services u) (v_fallback u) (Some (v_dn u)) (v_tag u) (v_version u) (v_owner u) (v_auth u) (v_controls u) now up es).
Definition base_of (u : setup) (bb : bytes) : Prop := utf8_encode (dn_text (v_dn u)) = Ok bb.
Lemma seen_snoc u now up es e : exists s, seen u now up es = b_trace s /\
  s = fold_left (b_step (v_lower u) (v_io u) (v_text u) (v_fallback u) (Some (v_dn u)) (v_tag u) (v_version u) (v_owner u) (v_auth u)) es
    (b_start (v_lower u) (v_text u) (v_services u) (v_fallback u) (Some (v_dn u)) (v_tag u) (v_version u) (v_owner u) (v_auth u) (v_controls u) now up) /\
  seen u now up (es ++ [e]) = b_trace (b_step (v_lower u) (v_io u) (v_text u) (v_fallback u) (Some (v_dn u)) (v_tag u) (v_version u) (v_owner u) (v_auth u) s e).
Proof. eexists. split; [reflexivity|]. split; [reflexivity|]. unfold seen, b_run. now rewrite fold_left_app. Qed.

(** ** C60 *)
(** Whatever the backend does: the services are asked for in the configured order, each only after the one before did not help,
    and it ends with a success after the backend accepted the password for the one entry found, with invalidCredentials or with the
    backend's answers to the client's own request when no service helped, or with an error. *)
Theorem C60_conversation : forall u bb now up es, base_of u bb ->
  conversation (v_io u) bb (v_owner u) (the_pw (v_auth u)) (v_services u) (v_fallback u) (v_req u) (seen u now up es).
Proof. intros u bb now up es B. exact (run_conv _ _ _ _ _ _ _ B _ _ _ _ _ now up es). Qed.
Print Assumptions C60_conversation.
(** A client is told of success only if the backend accepted the password for the one entry that a search for a service found, no earlier service
    having helped; or if no service helped, the client's own request was passed on and the backend gave that answer. *)
Theorem C60_success_only : forall u bb now up es v, base_of u bb -> In v (replies (seen u now up es)) -> bind_result 0 v ->
  (exists done n rest t r, v_services u = done ++ n :: rest /\ rounds (v_io u) bb (v_owner u) (the_pw (v_auth u)) done t /\
     accepted (v_io u) bb (v_owner u) (the_pw (v_auth u)) n r /\ seen u now up es = t ++ r ++ [BReply v]) \/
  (v_fallback u = true /\ exists t vs, rounds (v_io u) bb (v_owner u) (the_pw (v_auth u)) (v_services u) t /\ seen u now up es = t ++ passed_back (v_req u) vs /\ In v vs).
Proof. intros u bb now up es v B. exact (conversation_success _ _ _ _ _ _ _ _ v (C60_conversation u bb now up es B)). Qed.
Print Assumptions C60_success_only.
(** The searches are for the first services of the list, in that order. *)
Theorem C60_order : forall u bb now up es, base_of u bb ->
  exists ns rest, v_services u = ns ++ rest /\ Forall2 (asks bb (v_owner u)) (searches (seen u now up es)) ns.
Proof. intros u bb now up es B. exact (conversation_order _ _ _ _ _ _ _ _ (C60_conversation u bb now up es B)). Qed.
Print Assumptions C60_order.
(** Unless the request is passed on, there is at most one reply, and nothing after it. *)
Theorem C60_one_reply : forall u bb now up es, base_of u bb -> (forall r, ~ In (BForwarded r) (seen u now up es)) ->
  replies (seen u now up es) = [] \/ exists t v, seen u now up es = t ++ [BReply v] /\ replies t = [].
Proof. intros u bb now up es B. exact (conversation_one _ _ _ _ _ _ _ _ (C60_conversation u bb now up es B)). Qed.
Print Assumptions C60_one_reply.
(** When the backend accepts the password the client is told of success; *)
Theorem C60_grants : forall u bb now up es t q now' up' v, base_of u bb -> seen u now up es = t ++ [BBindAs q] -> bind_result 0 v ->
  seen u now up (es ++ [BMsg now' up' v]) = seen u now up es ++ [BCame v; BReply (OResult KBindResp (class_tag KBindResp) (VInt 0) (VBytes (v_owner u)) (VBytes []) VNone)].
Proof.
  intros u bb now up es t q now' up' v B T R. destruct (seen_snoc u now up es (BMsg now' up' v)) as (s & E & ES & ->). rewrite E in *.
  refine (goes_bind _ _ _ _ _ _ bb _ _ _ _ s t q v now' up' _ T R). rewrite ES. exact (run_inv _ _ _ _ _ _ _ B _ _ _ _ _ now up es).
Qed.
Print Assumptions C60_grants.
(** when it refuses it, the next service is tried, or the request passed on or refused. *)
Theorem C60_refused : forall u bb now up es t q now' v, base_of u bb -> seen u now up es = t ++ [BBindAs q] -> bind_result 49 v ->
  exists e, goes_on bb (v_owner u) (v_services u) (v_fallback u) (v_req u) e /\ seen u now up (es ++ [BMsg now' true v]) = seen u now up es ++ [BCame v; e].
Proof.
  intros u bb now up es t q now' v B T R. destruct (seen_snoc u now up es (BMsg now' true v)) as (s & E & ES & ->). rewrite E in *.
  refine (goes_refused _ _ _ _ _ _ bb B _ _ _ _ s t q v now' _ T R). rewrite ES. exact (run_inv _ _ _ _ _ _ _ B _ _ _ _ _ now up es).
Qed.
Print Assumptions C60_refused.
(** When the search ends: with no entry found it goes on; with one, the client's password is tried for that entry; with more, the bind fails. *)
Theorem C60_found : forall u bb now up es t q ms now' v ds, base_of u bb -> seen u now up es = t ++ BSearchFor q :: map BCame ms -> answers_search (v_io u) (ms ++ [v]) ds ->
  let t' := seen u now up (es ++ [BMsg now' true v]) in
  match ds with
  | [] => exists e, goes_on bb (v_owner u) (v_services u) (v_fallback u) (v_req u) e /\ t' = seen u now up es ++ [BCame v; e]
  | [d] => forall b p, utf8_encode (dn_text d) = Ok b -> the_pw (v_auth u) = Some p -> t' = seen u now up es ++ [BCame v; BBindAs (bind_as b p)]
  | _ => exists e, error_reply e /\ t' = seen u now up es ++ [BCame v; BReply e]
  end.
Proof.
  intros u bb now up es t q ms now' v ds B T A. cbn zeta. destruct (seen_snoc u now up es (BMsg now' true v)) as (s & E & ES & ->). rewrite E in *.
  refine (goes_search _ _ _ _ _ _ bb B _ _ _ _ s t q ms v ds now' _ T A). rewrite ES. exact (run_inv _ _ _ _ _ _ _ B _ _ _ _ _ now up es).
Qed.
Print Assumptions C60_found.
(** Once the request is passed on, every answer up to the final one is passed back. *)
Theorem C60_passes_back : forall u bb now up es t r vs now' up' v, base_of u bb -> Forall heard es -> seen u now up es = t ++ passed_back r vs ->
  Forall (fun w => last_response w = false) vs -> is_response v = true -> seen u now up (es ++ [BMsg now' up' v]) = seen u now up es ++ [BCame v; BReply v].
Proof.
  intros u bb now up es t r vs now' up' v B H T L R. destruct (seen_snoc u now up es (BMsg now' up' v)) as (s & E & ES & ->). rewrite E in *.
  refine (goes_passing _ _ _ _ _ _ bb _ _ _ _ s t r vs v now' up' _ _ T L R); rewrite ES; [exact (run_inv _ _ _ _ _ _ _ B _ _ _ _ _ now up es)|exact (run_w _ _ _ _ _ _ _ _ _ _ _ now up es H)].
Qed.
Print Assumptions C60_passes_back.
(** A request of another protocol version, or with a critical control, is refused and the backend hears nothing of it. *)
Theorem C60_unsupported : forall u now up es, v_version u <> 3 \/ (v_version u = 3 /\ exists x, checkControls (v_controls u) = Err x) ->
  exists v, error_reply v /\ seen u now up es = [BReply v].
Proof. intros u now up es H. exact (refused_start _ _ _ _ _ _ _ _ _ _ _ now up es H). Qed.
Print Assumptions C60_unsupported.

(** Two services. The backend has no entry for the first and one for the second, for which it accepts the password. *)
Definition sv_dn : dn := [[mkAtv (S_ "dc") (S_ "example")]].
Definition sv_io : Z -> Z -> res Z := fun _ _ => Err EValue.
Definition sv_u (services : list bytes) (fallback : bool) (owner : bytes) : setup :=
  mkV ascii_lower sv_io (fun _ => []) services fallback sv_dn (class_tag KBindReq) 3 owner (ASimple (VBytes (B "secret"))) None.
Definition sv_now : bytes := B "20261116120000Z".
Definition sv_done : obj := OResult KSearchDone (class_tag KSearchDone) (VInt 0) (VBytes []) (VBytes []) VNone.
Definition sv_bind (c : Z) : obj := OResult KBindResp (class_tag KBindResp) (VInt c) (VBytes []) (VBytes []) VNone.
Definition sv_entry : obj := OSearchEntry (class_tag KSearchEntry) (VBytes (B "cn=svc2+owner=cn\3DJack,dc=example")) [].
Definition sv_jack : bytes := B "cn=Jack,dc=example".
Definition sv_es (c : Z) : list bevent := map (BMsg sv_now true) [sv_done; sv_entry; sv_done; sv_bind c].
Example C60_case : base_of (sv_u [B "svc1"; B "svc2"] false sv_jack) (B "dc=example") /\
  seen (sv_u [B "svc1"; B "svc2"] false sv_jack) sv_now true (sv_es 0) =
    [BSearchFor (search_for (B "dc=example") sv_jack (B "svc1") sv_now); BCame sv_done;
     BSearchFor (search_for (B "dc=example") sv_jack (B "svc2") sv_now); BCame sv_entry; BCame sv_done;
     BBindAs (bind_as (B "cn=svc2+owner=cn\=Jack,dc=example") (B "secret")); BCame (sv_bind 0);
     BReply (OResult KBindResp (class_tag KBindResp) (VInt 0) (VBytes sv_jack) (VBytes []) VNone)] /\
  bind_result 0 (sv_bind 0).
Proof. split; [vm_compute; reflexivity|]. split; [vm_compute; reflexivity|]. repeat eexists. Qed.
(** It refuses it; the request is passed on, and the backend accepts that. *)
Example C60_fallback_case : let u := sv_u [B "svc2"] true sv_jack in
  seen u sv_now true (map (BMsg sv_now true) [sv_entry; sv_done; sv_bind 49; sv_bind 0]) =
    [BSearchFor (search_for (B "dc=example") sv_jack (B "svc2") sv_now); BCame sv_entry; BCame sv_done;
     BBindAs (bind_as (B "cn=svc2+owner=cn\=Jack,dc=example") (B "secret")); BCame (sv_bind 49)] ++ passed_back (v_req u) [sv_bind 0] /\
  Forall heard (map (BMsg sv_now true) [sv_entry; sv_done; sv_bind 49; sv_bind 0]).
Proof. cbn zeta. split; [vm_compute; reflexivity|]. cbn [map]. repeat (apply Forall_cons; [reflexivity|]). constructor. Qed.
Example C60_search_case : exists t ms, seen (sv_u [B "svc1"; B "svc2"] false sv_jack) sv_now true (firstn 2 (sv_es 0)) = t ++ BSearchFor (search_for (B "dc=example") sv_jack (B "svc2") sv_now) :: map BCame ms /\
  exists d, answers_search sv_io (ms ++ [sv_done]) [d].
Proof.
  exists [BSearchFor (search_for (B "dc=example") sv_jack (B "svc1") sv_now); BCame sv_done], [sv_entry]. split; [vm_compute; reflexivity|].
  assert (D : exists d, to_dn sv_io (VBytes (B "cn=svc2+owner=cn\3DJack,dc=example")) = Ok d) by (eexists; vm_compute; reflexivity).
  destruct D as [d D]. exists d. apply As; [|now left]. apply (Sp_entry sv_io [] [] (class_tag KSearchEntry) _ [] d); [constructor|exact D].
Qed.

(** With fallback and no services, the client's own request is not passed on: the bind is refused whatever the backend would say. *)
Theorem C60_no_services_refuted : exists u, v_services u = [] /\ v_fallback u = true /\ v_version u = 3 /\ v_controls u = None /\
  forall now up es, exists v, error_reply v /\ seen u now up es = [BReply v].
Proof.
  exists (sv_u [] true sv_jack). repeat (split; [reflexivity|]). intros now up es. exists (res_obj KBindResp 2 (VBytes []) (VBytes [])). split; [exists 2; eexists; split; [discriminate|reflexivity]|].
  unfold seen, b_run. change (b_start _ _ _ _ _ _ _ _ _ _ _ _) with (mkB BDone [BReply (res_obj KBindResp 2 (VBytes []) (VBytes []))]).
  assert (G : forall l, b_trace (fold_left (b_step ascii_lower sv_io (fun _ => []) true (Some sv_dn) (class_tag KBindReq) 3 sv_jack (ASimple (VBytes (B "secret")))) l (mkB BDone [BReply (res_obj KBindResp 2 (VBytes []) (VBytes []))])) = [BReply (res_obj KBindResp 2 (VBytes []) (VBytes []))]).
  { induction l as [|e l IH]; [reflexivity|]. cbn [fold_left]. destruct e as [nw u w|nw]; [|exact IH]. unfold b_step at 2. cbn [b_phase]. destruct (negb (is_response w)); exact IH. }
  apply G.
Qed.
Print Assumptions C60_no_services_refuted.
(** An anonymous bind is not passed straight on: the name is octets, and the code compares it with text. The backend is asked for services of nobody. *)
Theorem C60_anonymous_refuted : exists u now, v_owner u = [] /\ v_fallback u = true /\
  forall rest, seen u now true [] <> BForwarded (v_req u) :: rest.
Proof. exists (sv_u [B "svc1"] true []), sv_now. split; [reflexivity|]. split; [reflexivity|]. intros rest. assert (E : seen (sv_u [B "svc1"] true []) sv_now true [] = [BSearchFor (search_for (B "dc=example") [] (B "svc1") sv_now)]) by (vm_compute; reflexivity). rewrite E. discriminate. Qed.
Print Assumptions C60_anonymous_refuted.
