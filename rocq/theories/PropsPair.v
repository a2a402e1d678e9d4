(** C97: a client and a server at the two ends of a connection. *)
From Verif Require Import Base BaseFacts BerModel LdapModel LdapSpec Utf8Model DnModel EntryModel DeltaModel MatchModel UtilModel LdifModel
  PwModel DnSpec InmemModel ServerModel ServerSpec ClientModel ClientSpec ClientProofs ClientStream LateModel LateSpec LateProofs PropsLate InmemProofs PairModel PairSpec PairClient PairServer PairProofs PairFacts PairGood PairCalm.

(** ** C97 *)
(** [reps], [choose] and [verdict] are the user of the client: any who makes their requests with the constructors of
    pureldap.py. [io] is int() of two characters: it raises no LDAP error. [es] is what happens: calls of the user,
    bytes that come to either end in pieces of any size, answers of the directory, loss of the connection.

    The client's messages have ids of their own and are written for the requests that were made; and what the server takes is
    the first of them, in order, each with the id, the request and the controls that the client's user gave. *)
Theorem C97_requests : forall reps choose verdict lower io oc_first text root next es,
  lawful_user choose -> (forall a b c, io a b <> Err (ELdap c)) -> 0 < next -> Forall lawful_event es ->
  let p := prun reps choose verdict lower io oc_first text root next es in
  exists ms, Forall2 sends ms (client_writes (p_client p)) /\ NoDup (map mid ms) /\
    (forall i op tls, In (TSent i op tls) (c_trace (p_client p)) -> exists q, op = request_obj q /\
      ((exists cs, In (i, q, cs) ms) \/ exists cs e, toWire (message_obj i op cs) = Err e)) /\
    exists j, map (read_message read_request) (taken (l_trace (p_server p))) = map as_read (firstn j ms).
Proof. intros. now apply requests. Qed.
Print Assumptions C97_requests.

(** What the server writes are responses, and what the client hears is the first of them, in order, each with the id of its request
    and what the server said. *)
Theorem C97_responses : forall reps choose verdict lower io oc_first text root next es,
  lawful_user choose -> (forall a b c, io a b <> Err (ELdap c)) -> 0 < next -> Forall lawful_event es ->
  let p := prun reps choose verdict lower io oc_first text root next es in
  exists rs, told (l_trace (p_server p)) = map (fun x => (VInt (fst x), response_obj (snd x))) rs /\
    exists j, map (read_message read_response) (heard (c_trace (p_client p))) = map (fun x => Some (fst x, seen_response (snd x), None)) (firstn j rs).
Proof. intros. now apply responses. Qed.
Print Assumptions C97_responses.

(** A response that the client gives to its user for request [i], by the Deferred or the handler, is one that the server wrote for this very
    request: the server read what the user sent, and the response is an entry that this request's search called back with, or the one
    result of the request, which says what the directory said about it. *)
Theorem C97_agreement : forall reps choose verdict lower io oc_first text root next es i v e,
  lawful_user choose -> (forall a b c, io a b <> Err (ELdap c)) -> 0 < next -> Forall lawful_event es ->
  let p := prun reps choose verdict lower io oc_first text root next es in
  In e (c_trace (p_client p)) -> (e = ClientModel.TFired i v \/ exists x, e = TCalled i v x) ->
  exists q tls k req cs names r b a c, In (TSent i (request_obj q) tls) (c_trace (p_client p)) /\
    l_trace (p_server p) = a ++ TWrite k (VInt i) (response_obj r) b :: c /\
    came a k (VInt i) req cs names /\ read_request req = Some (seen_request q) /\ read_response v = Some (seen_response r) /\
    ((is_entry (response_obj r) /\ entry_for lower oc_first root req names (response_obj r)) \/
     (~ is_entry (response_obj r) /\ answers req (response_obj r) /\ results k a = [] /\ truth a k req (response_obj r))).
Proof. intros. now apply (agreement reps choose verdict lower io oc_first text root next) with (e := e). Qed.
Print Assumptions C97_agreement.

(** For one: if a user who asked to delete [d] is told of success, the directory found an entry under that name and deleted it. (A
    directory may not fail with the error of code 0: there is none.) *)
Theorem C97_deleted : forall reps choose verdict lower io oc_first text root next es i v e d tls,
  lawful_user choose -> (forall a b c, io a b <> Err (ELdap c)) -> 0 < next -> Forall lawful_event es ->
  let p := prun reps choose verdict lower io oc_first text root next es in
  (forall n m, ~ In (LateModel.TFired n (DErr (ELdap 0) m)) (l_trace (p_server p))) ->
  In (TSent i (request_obj (Delete d)) tls) (c_trace (p_client p)) ->
  In e (c_trace (p_client p)) -> (e = ClientModel.TFired i v \/ exists x, e = TCalled i v x) -> code v = 0 ->
  exists k to x o n n', to_dn io (VBytes d) = Ok to /\ gave (l_trace (p_server p)) n k (CLookup to) (DOk (Some x)) /\ gave (l_trace (p_server p)) n' k (CDelete x) (DOk o).
Proof.
  intros reps choose verdict lower io oc_first text root next es i v e d tls law IO pos L p N0 SD I H C0.
  destruct (C97_agreement reps choose verdict lower io oc_first text root next es i v e law IO pos L I H) as (q & tls' & k & req & cs & names & r & b & a & c & S1 & W & CM & RQ & RV & _).
  destruct (pair_ok reps choose verdict lower io oc_first text root next law IO pos es L) as (ces & les & ms & P). fold p in P, S1, W.
  pose proof (pi_c _ _ _ _ _ _ _ _ _ _ _ _ _ P) as EC. destruct (run_ok reps choose verdict next ces pos) as (V & _). assert (ND : NoDup (sents (c_trace (p_client p)))) by (rewrite EC; apply sents_NoDup, V).
  assert (EQ : request_obj q = request_obj (Delete d)).
  { clear - ND S1 SD. induction (c_trace (p_client p)) as [|y t IH]; [destruct S1|]. unfold sents in ND. cbn [flat_map] in ND. fold (sents t) in ND.
    assert (X : forall op tl, In (TSent i op tl) t -> In i (sents t)) by (intros op tl J; apply in_flat_map; eexists; split; [exact J|now left]).
    destruct S1 as [->|S1], SD as [E|SD].
    - now injection E.
    - cbn in ND. inversion ND as [|? ? N _]; subst. destruct N. eapply X, SD.
    - subst y. cbn in ND. inversion ND as [|? ? N _]; subst. destruct N. eapply X, S1.
    - apply IH; auto. now apply InmemProofs.NoDup_app_r in ND. }
  apply request_delete in EQ. subst q. destruct (read_delete _ _ RQ) as (tg & ->). exists k.
  pose proof (run_inv lower io oc_first text root IO False les (fun F => match F with end)) as VS. rewrite <- (pi_s _ _ _ _ _ _ _ _ _ _ _ _ _ P) in VS.
  rewrite (code_seen _ _ RV) in C0.
  exact (deleted lower io oc_first root _ a k _ d tg cs names r b c (i_cd _ _ _ _ _ _ _ VS) (i_wr _ _ _ _ _ _ _ VS) (i_tr _ _ _ _ _ _ _ VS) W CM C0 N0).
Qed.
Print Assumptions C97_deleted.

(** And no request is forgotten: once all bytes have come and all of the directory's Deferreds have fired, and if no message made the client
    raise, each request has completed, if the handlers say of a result that it is the last. The exceptions are a request whose message cannot
    be encoded and one whose result cannot be, or meets a lost connection: there the client's user waits until the connection is lost (C40). *)
Theorem C97_completes : forall reps choose verdict lower io oc_first text root next es,
  lawful_user choose -> (forall a b c, io a b <> Err (ELdap c)) -> 0 < next -> Forall lawful_event es ->
  let p := prun reps choose verdict lower io oc_first text root next es in
  p_up p = length (concat (client_writes (p_client p))) -> p_buffer p = [] -> p_down p = length (concat (server_writes (p_server p))) ->
  (forall n k c, In (TCall n k c) (l_trace (p_server p)) -> exists r, In (LateModel.TFired n r) (l_trace (p_server p))) ->
  (forall x, ~ In (TError x) (c_trace (p_client p))) ->
  (forall t i v, last_got t i v -> ~ is_entry v -> verdict t = Ok true) ->
  forall i op tls, In (TSent i op tls) (c_trace (p_client p)) ->
  In i (completions (c_trace (p_client p))) \/ (exists cs x, toWire (message_obj i op cs) = Err x) \/
  exists k req cs names op' x, came (l_trace (p_server p)) k (VInt i) req cs names /\ In (TUnsent k op' x) (l_trace (p_server p)).
Proof. intros reps choose verdict lower io oc_first text root next es law IO pos L p. now apply completes_all. Qed.
Print Assumptions C97_completes.

(** No message makes the client raise, if its user keeps to the rules: a search goes with a handler, nothing is abandoned, and the handler says of a
    result, and of nothing else, that it is the last; and if the directory does not call back for a search that has ended. *)
Theorem C97_no_errors : forall reps choose verdict lower io oc_first text root next es x,
  lawful_user choose -> modest_user choose -> tells_last verdict -> (forall a b c, io a b <> Err (ELdap c)) -> 0 < next ->
  Forall lawful_event es -> Forall modest_event es -> tidy_directory (prun reps choose verdict lower io oc_first text root next) es ->
  ~ In (TError x) (c_trace (p_client (prun reps choose verdict lower io oc_first text root next es))).
Proof. intros. now apply no_errors. Qed.
Print Assumptions C97_no_errors.
(** So each of their requests completes. *)
Theorem C97_all_complete : forall reps choose verdict lower io oc_first text root next es,
  lawful_user choose -> modest_user choose -> tells_last verdict -> (forall a b c, io a b <> Err (ELdap c)) -> 0 < next ->
  Forall lawful_event es -> Forall modest_event es -> tidy_directory (prun reps choose verdict lower io oc_first text root next) es ->
  let p := prun reps choose verdict lower io oc_first text root next es in
  p_up p = length (concat (client_writes (p_client p))) -> p_buffer p = [] -> p_down p = length (concat (server_writes (p_server p))) ->
  (forall n k c, In (TCall n k c) (l_trace (p_server p)) -> exists r, In (LateModel.TFired n r) (l_trace (p_server p))) ->
  forall i op tls, In (TSent i op tls) (c_trace (p_client p)) ->
  In i (completions (c_trace (p_client p))) \/ (exists cs x, toWire (message_obj i op cs) = Err x) \/
  exists k req cs names op' x, came (l_trace (p_server p)) k (VInt i) req cs names /\ In (TUnsent k op' x) (l_trace (p_server p)).
Proof.
  intros reps choose verdict lower io oc_first text root next es law mild tells IO pos L D T p U B0 W F. apply C97_completes; auto.
  - intros x. now apply C97_no_errors.
  - intros t i v. now apply last_verdict.
Qed.
Print Assumptions C97_all_complete.

(** A conversation: a search with a handler and two deletes; the directory answers the second delete first, and the bytes come in pieces. *)
Definition pr_verdict (t : list ClientModel.tev) : res bool :=
  match flat_map got (rev t) with (_, OSearchEntry _ _ _) :: _ => Ok false | _ => Ok true end.
Definition pr_run := prun (fun _ => O) (fun _ => None) pr_verdict ascii_lower lt_io true (fun _ => B "why") 0%nat 1.
Definition pr_send (k : sendkind) (q : request) : pevent := PUser (USend k (request_obj q) None).
Lemma pr_lawful k q : lawful_event (pr_send k q). Proof. now exists q, None. Qed.
Definition pr_ok (n : nat) (e : ent) : pevent := PFired n (DOk (Some e)) lt_names.
Arguments pr_ok (n e)%nat_scope.
Definition pr_search (b : string) : request := Search (B b) 2 0 0 0 false (FPresent (B "cn")) [].
Definition pr_es : list pevent :=
  [PMade; pr_send (KMulti true false) (pr_search "dc=com"); pr_send KSend (Delete (B "cn=a,dc=com")); PUp 10; PTake lt_names; PUp 50; PTake lt_names;
   pr_send KSend (Delete (B "cn=b,dc=com")); PUp 500; PTake lt_names; PTake lt_names; pr_ok 0 0; pr_ok 2 2; PEntry 3 (lt_entry 1); PDown 7; pr_ok 4 2; PDown 500;
   PFired 1 (DErr (ELdap 32) (VBytes [])) lt_names; pr_ok 3 0; PDown 1; PDown 1000].
Definition pr_seen (t : list ClientModel.tev) : list (Z * Z) :=
  flat_map (fun e => match e with ClientModel.TFired i v | TCalled i v _ => [(i, code v)] | _ => [] end) t.
Lemma pr_all_fired t :
  forallb (fun e => match e with TCall n _ _ => existsb (fun e' => match e' with LateModel.TFired m _ => Nat.eqb n m | _ => false end) t | _ => true end) t = true ->
  forall n k c, In (TCall n k c) t -> exists r, In (LateModel.TFired n r) t.
Proof.
  intros X n k c I. rewrite forallb_forall in X. apply X in I. apply existsb_exists in I as (e & I & E). destruct e; try discriminate.
  apply Nat.eqb_eq in E. subst. eauto.
Qed.
Example C97_case : Forall lawful_event pr_es /\ lawful_user (fun _ => None) /\ (forall t i v, last_got t i v -> ~ is_entry v -> pr_verdict t = Ok true) /\
  let p := pr_run pr_es in
  pr_seen (c_trace (p_client p)) = [(1, -1); (3, 0); (2, 32); (1, 0)] /\ completions (c_trace (p_client p)) = [3; 2; 1] /\
  p_up p = length (concat (client_writes (p_client p))) /\ p_buffer p = [] /\ p_down p = length (concat (server_writes (p_server p))) /\
  map fst (told (l_trace (p_server p))) = [VInt 1; VInt 3; VInt 2; VInt 1] /\
  (forall x, ~ In (TError x) (c_trace (p_client p))) /\
  (forall n k c, In (TCall n k c) (l_trace (p_server p)) -> exists r, In (LateModel.TFired n r) (l_trace (p_server p))).
Proof.
  split; [unfold pr_es; repeat (apply Forall_cons; [first [apply pr_lawful|exact I]|]); constructor|]. split; [discriminate|]. split.
  { intros t i v (a & b & c & -> & G) N. unfold pr_verdict. rewrite rev_app_distr, flat_map_app. cbn [rev]. rewrite flat_map_app.
    assert (R : flat_map got (rev b) = []).
    { clear - G. induction b as [|y b IH]; [reflexivity|]. cbn [flat_map rev] in G |- *. apply app_eq_nil in G as (G1 & G2). rewrite flat_map_app, IH by exact G2. cbn [flat_map]. now rewrite G1. }
    rewrite R. cbn. destruct v; try reflexivity. now destruct N. }
  cbv zeta. do 6 (split; [vm_compute; reflexivity|]). split.
  - intros x I. assert (X : existsb (fun e => match e with TError _ => true | _ => false end) (c_trace (p_client (pr_run pr_es))) = true) by (apply existsb_exists; exists (TError x); split; [exact I|reflexivity]).
    clear I. revert X. vm_compute. discriminate.
  - apply pr_all_fired. vm_compute. reflexivity.
Qed.
(** The delete of cn=b succeeded. *)
Example C97_deleted_case : exists v, In (ClientModel.TFired 3 v) (c_trace (p_client (pr_run pr_es))) /\ code v = 0 /\
  In (TSent 3 (request_obj (Delete (B "cn=b,dc=com"))) false) (c_trace (p_client (pr_run pr_es))) /\
  gave (l_trace (p_server (pr_run pr_es))) 4%nat 2%nat (CDelete 2%nat) (DOk (Some 2%nat)).
Proof. eexists. split; [vm_compute; do 9 right; left; reflexivity|]. split; [reflexivity|]. split; [vm_compute; do 4 right; left; reflexivity|]. split; vm_compute; repeat (first [left; reflexivity|right]). Qed.

(** They keep to the rules. *)
Lemma pr_tells : tells_last pr_verdict.
Proof.
  intros t a i v c b -> N. unfold pr_verdict. rewrite rev_app_distr, flat_map_app. cbn [rev]. rewrite flat_map_app.
  assert (R : flat_map got (rev b) = []) by (apply got_none; intros i' v' c' I; apply in_rev in I; now apply (N i' v' c')).
  rewrite R. cbn. now destruct v.
Qed.
Lemma pr_tidy run es : (forall m : nat, match nth_error es m with Some (PEntry n _) =>
    existsb (fun e => match e with LateModel.TFired k _ => Nat.eqb k n | _ => false end) (l_trace (p_server (run (firstn m es)))) = false | _ => True end) -> tidy_directory run es.
Proof.
  intros X a n e b E r I. specialize (X (length a)). rewrite E, nth_error_app2, Nat.sub_diag in X by auto. cbn [nth_error] in X.
  rewrite firstn_app, Nat.sub_diag, firstn_all, app_nil_r in X. assert (Y : existsb (fun e => match e with LateModel.TFired k _ => Nat.eqb k n | _ => false end) (l_trace (p_server (run a))) = true).
  { apply existsb_exists. exists (LateModel.TFired n r). split; [exact I|apply Nat.eqb_refl]. }
  congruence.
Qed.
Lemma pr_modest : Forall modest_event pr_es.
Proof.
  unfold pr_es, pr_send, pr_search. repeat (apply Forall_cons; [cbn; first [exact I|repeat split; intros; first [discriminate|contradiction|reflexivity]]|]). constructor.
Qed.
Example C97_all_complete_case : modest_user (fun _ => None) /\ tells_last pr_verdict /\ Forall modest_event pr_es /\ tidy_directory pr_run pr_es.
Proof.
  split; [discriminate|]. split; [exact pr_tells|]. split; [exact pr_modest|]. apply pr_tidy. intros m. do 21 (destruct m as [|m]; [first [exact I|vm_compute; reflexivity]|]).
  unfold pr_es. cbn [nth_error]. now destruct m.
Qed.

(** That no message makes the client raise cannot be left out. The server answers an abandon request, which nobody waits for: the client
    raises KeyError in dataReceived, which ends the connection, and the delete is never completed. *)
Definition pr_errors (t : list ClientModel.tev) : list exn := flat_map (fun e => match e with TError x => [x] | _ => [] end) t.
Theorem C97_abandon_refuted : exists es, Forall lawful_event es /\ let p := pr_run es in
  pr_errors (c_trace (p_client p)) = [EKey] /\ completions (c_trace (p_client p)) = [] /\ sents (c_trace (p_client p)) = [1] /\
  lt_said (l_trace (p_server p)) = [(VInt 2, 2)].
Proof.
  exists [PMade; pr_send KSend (Delete (B "cn=a,dc=com")); pr_send KNoResponse (Abandon 1); PUp 500; PTake lt_names; PTake lt_names; PDown 500].
  split; [repeat (apply Forall_cons; [first [apply pr_lawful|exact I]|]); constructor|]. cbv zeta. repeat split; vm_compute; reflexivity.
Qed.
Print Assumptions C97_abandon_refuted.
(** Nor does send do for a search: its Deferred fires with the first entry, and the result makes the client raise. *)
Theorem C97_search_refuted : exists es, Forall lawful_event es /\ let p := pr_run es in
  pr_errors (c_trace (p_client p)) = [EKey] /\ pr_seen (c_trace (p_client p)) = [(1, -1)] /\ lt_said (l_trace (p_server p)) = [(VInt 1, -1); (VInt 1, 0)].
Proof.
  exists [PMade; pr_send KSend (pr_search "dc=com"); PUp 500; PTake lt_names; pr_ok 0 0; PEntry 1 (lt_entry 1); pr_ok 1 0; PDown 500].
  split; [repeat (apply Forall_cons; [first [apply pr_lawful|exact I]|]); constructor|]. cbv zeta. repeat split; vm_compute; reflexivity.
Qed.
Print Assumptions C97_search_refuted.
(** And a directory that calls back for a search after its end makes the server write an entry after the result, which makes the client raise. *)
Theorem C97_late_entry_refuted : exists es, Forall lawful_event es /\ Forall modest_event es /\ let p := pr_run es in
  pr_errors (c_trace (p_client p)) = [EKey] /\ pr_seen (c_trace (p_client p)) = [(1, 0)] /\ lt_said (l_trace (p_server p)) = [(VInt 1, 0); (VInt 1, -1)].
Proof.
  exists [PMade; pr_send (KMulti true false) (pr_search "dc=com"); PUp 500; PTake lt_names; pr_ok 0 0; pr_ok 1 0; PEntry 1 (lt_entry 1); PDown 500].
  split; [repeat (apply Forall_cons; [first [apply pr_lawful|exact I]|]); constructor|]. split.
  { unfold pr_send, pr_search. repeat (apply Forall_cons; [cbn; first [exact I|repeat split; intros; first [discriminate|contradiction|reflexivity]]|]). constructor. }
  cbv zeta. repeat split; vm_compute; reflexivity.
Qed.
Print Assumptions C97_late_entry_refuted.
