(** C96: the LDAP server in front of a directory that answers later. *)
From Verif Require Import Base BaseFacts BerModel LdapModel LdapSpec Utf8Model DnModel EntryModel DeltaModel MatchModel UtilModel LdifModel
  PwModel DnSpec InmemModel ServerModel ServerSpec LateModel LateSpec LateProofs.

(** ** C96 *)
(** [io] is int() of two characters: it raises no LDAP error.

    Whatever comes, and in whatever order the directory answers: each message that is written carries the id of
    its request, is written once in its octets while the connection is up, and is an entry that the request's
    search called back with, or the first result of the request, of the request's kind. *)
Theorem C96_written : forall lower io oc_first text root es, (forall a b c, io a b <> Err (ELdap c)) ->
  each (written lower oc_first root) (l_trace (lrun lower io oc_first text root es)).
Proof. intros lower io oc_first text root es IO. apply (i_wr _ _ _ _ _ _ _ (run_inv lower io oc_first text root IO False es (fun F => match F with end))). Qed.
Print Assumptions C96_written.
(** A request gets one result at most. *)
Theorem C96_one_result : forall lower io oc_first text root es k, (forall a b c, io a b <> Err (ELdap c)) ->
  (length (results k (l_trace (lrun lower io oc_first text root es))) <= 1)%nat.
Proof. intros lower io oc_first text root es k IO. eapply written_one, C96_written, IO. Qed.
Print Assumptions C96_one_result.
(** And a request that has none yet waits for a call of the directory, whose firing is acted on: none is
    forgotten. A request makes two calls at most. *)
Theorem C96_every_request : forall lower io oc_first text root es k id req cs names, (forall a b c, io a b <> Err (ELdap c)) ->
  let run := lrun lower io oc_first text root in
  came (l_trace (run es)) k id req cs names -> expects_answer req -> results k (l_trace (run es)) = [] ->
  exists n c, In (TCall n k c) (l_trace (run es)) /\ (forall r, ~ In (TFired n r) (l_trace (run es))) /\
    forall r names', In (TFired n r) (l_trace (run (es ++ [EFired n r names']))).
Proof. intros lower io oc_first text root es k id req cs names IO run C E R. eapply unanswered; eauto. Qed.
Print Assumptions C96_every_request.
Theorem C96_two_calls : forall lower io oc_first text root es k, (forall a b c, io a b <> Err (ELdap c)) ->
  (length (calls_for k (l_trace (lrun lower io oc_first text root es))) <= 2)%nat.
Proof. intros lower io oc_first text root es k IO. apply (i_two _ _ _ _ _ _ _ (run_inv lower io oc_first text root IO False es (fun F => match F with end))). Qed.
Print Assumptions C96_two_calls.
(** So once every call has fired, every request that expects an answer has its result. *)
Theorem C96_answered : forall lower io oc_first text root es k id req cs names, (forall a b c, io a b <> Err (ELdap c)) ->
  let t := l_trace (lrun lower io oc_first text root es) in
  (forall n k' c, In (TCall n k' c) t -> exists r, In (TFired n r) t) ->
  came t k id req cs names -> expects_answer req -> exists op, results k t = [op].
Proof.
  intros lower io oc_first text root es k id req cs names IO t A C E.
  pose proof (C96_one_result lower io oc_first text root es k IO) as L. fold t in L.
  destruct (results k t) as [|op [|? ?]] eqn:R; [|eauto|cbn in L; lia].
  destruct (C96_every_request lower io oc_first text root es k id req cs names IO C E R) as (n & c & I & N & _).
  destruct (A _ _ _ I) as (r & F). now destruct (N r).
Qed.
Print Assumptions C96_answered.
(** Each call of the directory is what a request asks for, on an entry that the directory found for this very
    request; the request has no critical control and no result yet. The password that changes is that of the user
    who is logged in at the time. A call fires once. *)
Theorem C96_calls : forall lower io oc_first text root es, (forall a b c, io a b <> Err (ELdap c)) ->
  each (called io) (l_trace (lrun lower io oc_first text root es)).
Proof. intros lower io oc_first text root es IO. apply (i_cd _ _ _ _ _ _ _ (run_inv lower io oc_first text root IO False es (fun F => match F with end))). Qed.
Print Assumptions C96_calls.
(** Who is logged in: the user of the bind that the directory granted last, and nobody after an anonymous bind. *)
Theorem C96_identity : forall lower io oc_first text root es, (forall a b c, io a b <> Err (ELdap c)) ->
  let s := lrun lower io oc_first text root es in l_bound s = who (l_trace s).
Proof. intros lower io oc_first text root es IO s. apply (i_who _ _ _ _ _ _ _ (run_inv lower io oc_first text root IO False es (fun F => match F with end))). Qed.
Print Assumptions C96_identity.
(** A result says what the directory said about this request: the code of the failure, or success only if the
    directory did what the request is for. *)
Theorem C96_truthful : forall lower io oc_first text root es, (forall a b c, io a b <> Err (ELdap c)) ->
  each truthful (l_trace (lrun lower io oc_first text root es)).
Proof. intros lower io oc_first text root es IO. apply (i_tr _ _ _ _ _ _ _ (run_inv lower io oc_first text root IO False es (fun F => match F with end))). Qed.
Print Assumptions C96_truthful.
(** If the directory does not call back for a search that has ended, the entries come before the result. *)
Theorem C96_entries_first : forall lower io oc_first text root es, (forall a b c, io a b <> Err (ELdap c)) ->
  tidy (lrun lower io oc_first text root) es -> each entries_first (l_trace (lrun lower io oc_first text root es)).
Proof. intros lower io oc_first text root es IO T. apply (i_first _ _ _ _ _ _ _ (run_inv lower io oc_first text root IO True es (fun _ => T)) I). Qed.
Print Assumptions C96_entries_first.

(** A conversation: entry 1 is cn=a, entry 2 is cn=b. *)
Definition lt_io (a b : Z) : res Z := Err EValue.
Definition lt_run := lrun ascii_lower lt_io true (fun _ => B "why") 0%nat.
Definition lt_rd (t v : string) : rdn := [mkAtv (S_ t) (S_ v)].
Definition lt_names (e : ent) : dn :=
  match e with 1%nat => [lt_rd "cn" "a"; lt_rd "dc" "com"] | 2%nat => [lt_rd "cn" "b"; lt_rd "dc" "com"] | _ => [lt_rd "dc" "com"] end.
Definition lt_msg (i : Z) (req : obj) : levent := EMessage (OMessage (class_tag KMessage) (VInt i) req None) lt_names.
Definition lt_bind (d p : string) : obj := OBindReq (class_tag KBindReq) (VInt 3) (VBytes (B d)) (ASimple (VBytes (B p))).
Definition lt_del (d : string) : obj := OStr KDelReq (class_tag KDelReq) (B d).
Definition lt_search (base : string) : obj :=
  OSearchReq (class_tag KSearchReq) (VBytes (B base)) (VInt 2) (VInt 0) (VInt 0) (VInt 0) (VInt 0) (OStr KPresent (class_tag KPresent) (B "cn")) [].
Definition lt_pwreq (new : string) : obj :=
  OExtReq (class_tag KExtReq) (VBytes pw_oid)
    (VBytes (match toWire (OSeq KSeq (class_tag KSeq) [OStr KPwNew (class_tag KPwNew) (B new)]) with Ok b => b | Err _ => [] end)).
Definition lt_ok (n : nat) (e : ent) : levent := EFired n (DOk (Some e)) lt_names.
(** What is said to the client, in order: ids and codes (entries as -1) *)
Definition lt_said (t : list tev) : list (pv * Z) :=
  flat_map (fun e => match e with TWrite _ id op _ => [(id, code op)] | _ => [] end) t.
Definition lt_entry (e : ent) : entry := new_entry ascii_lower (lt_names e) [(PBytes (B "cn"), [PBytes (B "x")])].
Arguments lt_ok (n e)%nat_scope.
Arguments lt_entry e%nat_scope.
Lemma lt_io_nl : forall a b c, lt_io a b <> Err (ELdap c). Proof. discriminate. Qed.

(** Two searches and a delete in progress at once; the delete fails; the second search ends first. *)
Definition lt_es : list levent :=
  [EMade; lt_msg 4 (lt_search "dc=com"); lt_msg 5 (lt_search "cn=a,dc=com"); lt_msg 6 (lt_del "cn=b,dc=com");
   lt_ok 1 1; lt_ok 0 0; lt_ok 2 2; EEntry 4 (lt_entry 0); EEntry 3 (lt_entry 1); lt_ok 3 1; EFired 5 (DErr (ELdap 66) (VBytes [])) lt_names;
   EEntry 4 (lt_entry 2); lt_ok 4 0].
Example C96_case : lt_said (l_trace (lt_run lt_es)) = [(VInt 4, -1); (VInt 5, -1); (VInt 5, 0); (VInt 6, 66); (VInt 4, -1); (VInt 4, 0)] /\
  map (fun k => length (results k (l_trace (lt_run lt_es)))) [0%nat; 1%nat; 2%nat] = [1; 1; 1]%nat /\
  calls_for 2%nat (l_trace (lt_run lt_es)) = [CLookup [lt_rd "cn" "b"; lt_rd "dc" "com"]; CDelete 2%nat].
Proof. split; [|split]; vm_compute; reflexivity. Qed.
Example C96_entries_first_case : tidy lt_run lt_es.
Proof.
  assert (F : forall n r t, In (TFired n r) t -> existsb (fun e => match e with TFired m _ => Nat.eqb n m | _ => false end) t = false -> False).
  { intros n r t I X. assert (Y : existsb (fun e => match e with TFired m _ => Nat.eqb n m | _ => false end) t = true); [|congruence].
    apply existsb_exists. exists (TFired n r). split; [exact I|apply Nat.eqb_refl]. }
  intros a n e b E r I. apply F in I; [exact I|]. clear I F r. unfold lt_es, lt_ok, lt_msg in E.
  do 13 (destruct a as [|? a]; [try discriminate E; injection E as <- _ _; vm_compute; reflexivity|injection E as <- E]).
  destruct a; discriminate E.
Qed.
(** A bind, then a change of the user's own password; before the lookup fires the request waits for it. *)
Example C96_password_case : let es := [EMade; lt_msg 1 (lt_bind "cn=a,dc=com" "secret"); lt_ok 0 1; lt_ok 1 1; lt_msg 2 (lt_pwreq "new")] in
  who (l_trace (lt_run es)) = Some 1%nat /\ l_bound (lt_run es) = Some 1%nat /\
  calls_for 1%nat (l_trace (lt_run es)) = [CPassword 1%nat (B "new")] /\ results 1%nat (l_trace (lt_run es)) = [] /\
  lt_said (l_trace (lt_run (es ++ [lt_ok 2 1]))) = [(VInt 1, 0); (VInt 2, 0)] /\ lt_said (l_trace (lt_run (es ++ [EFired 2 (DOk None) lt_names]))) = [(VInt 1, 0); (VInt 2, 1)].
Proof. cbv zeta. repeat split; vm_compute; reflexivity. Qed.

(** What RFC 4511 wants and the server does not do. (4.2.1) Requests that come while a bind is in progress are
    taken under the old identity: the password of cn=a is changed, although the client's last bind before
    the request is one as cn=b, and succeeds. *)
Theorem C96_bind_in_progress_refuted : exists pre, who (l_trace (lt_run pre)) = Some 1%nat /\
  let es := pre ++ [lt_msg 2 (lt_bind "cn=b,dc=com" "other"); lt_msg 3 (lt_pwreq "new"); lt_ok 2 2; lt_ok 4 2; lt_ok 3 1] in
  (exists n, In (TCall n 2%nat (CPassword 1%nat (B "new"))) (l_trace (lt_run es))) /\
  lt_said (l_trace (lt_run es)) = [(VInt 1, 0); (VInt 2, 0); (VInt 3, 0)] /\ l_bound (lt_run es) = Some 2%nat.
Proof.
  exists [EMade; lt_msg 1 (lt_bind "cn=a,dc=com" "secret"); lt_ok 0 1; lt_ok 1 1]. split; [vm_compute; reflexivity|]. cbv zeta.
  split; [exists 3%nat; vm_compute; repeat (first [left; reflexivity|right])|]. split; vm_compute; reflexivity.
Qed.
Print Assumptions C96_bind_in_progress_refuted.
(** Two binds that cross: the client is the user of its first one, if the directory granted that last; and an anonymous
    bind that was answered is undone by one that came before it. *)
Theorem C96_binds_cross_refuted :
  (exists es, es = [EMade; lt_msg 1 (lt_bind "cn=a,dc=com" "p"); lt_msg 2 (lt_bind "cn=b,dc=com" "q"); lt_ok 0 1; lt_ok 1 2; lt_ok 3 2; lt_ok 2 1] /\
     lt_said (l_trace (lt_run es)) = [(VInt 2, 0); (VInt 1, 0)] /\ l_bound (lt_run es) = Some 1%nat) /\
  (exists es, es = [EMade; lt_msg 1 (lt_bind "cn=a,dc=com" "p"); lt_msg 2 (lt_bind "" ""); lt_ok 0 1; lt_ok 1 1] /\
     lt_said (l_trace (lt_run es)) = [(VInt 2, 0); (VInt 1, 0)] /\ l_bound (lt_run es) = Some 1%nat).
Proof. split; eexists; (split; [reflexivity|]); split; vm_compute; reflexivity. Qed.
Print Assumptions C96_binds_cross_refuted.
(** (4.2.1) A bind that fails leaves the old identity in place. *)
Theorem C96_failed_bind_refuted : exists es, lt_said (l_trace (lt_run es)) = [(VInt 1, 0); (VInt 2, 49)] /\ l_bound (lt_run es) = Some 1%nat.
Proof.
  exists [EMade; lt_msg 1 (lt_bind "cn=a,dc=com" "p"); lt_ok 0 1; lt_ok 1 1; lt_msg 2 (lt_bind "cn=b,dc=com" "q"); lt_ok 2 2; EFired 3 (DErr (ELdap 49) (VBytes [])) lt_names].
  split; vm_compute; reflexivity.
Qed.
Print Assumptions C96_failed_bind_refuted.
(** A request that waits when the connection is lost, or the client unbinds, is carried out all the same: here a delete. *)
Theorem C96_goes_on_refuted : exists a b n k e, l_trace (lt_run [EMade; lt_msg 1 (lt_del "cn=a,dc=com"); ELost; lt_ok 0 1]) = a ++ TCall n k (CDelete e) :: b /\ In TLost a.
Proof.
  eexists [_; _; _; _; _], [], 1%nat, 0%nat, 1%nat. split; [vm_compute; reflexivity|]. cbn. auto.
Qed.
Print Assumptions C96_goes_on_refuted.
(** An abandoned request is carried out, and answered. *)
Theorem C96_abandoned_refuted : exists es, es = [EMade; lt_msg 1 (lt_del "cn=a,dc=com"); lt_msg 2 (OInt KAbandon (class_tag KAbandon) 1); lt_ok 0 1; lt_ok 1 1] /\
  lt_said (l_trace (lt_run es)) = [(VInt 2, 2); (VInt 1, 0)] /\ calls_for 0%nat (l_trace (lt_run es)) = [CLookup (lt_names 1%nat); CDelete 1%nat].
Proof. eexists. split; [reflexivity|]. split; vm_compute; reflexivity. Qed.
Print Assumptions C96_abandoned_refuted.
(** A directory that calls back late has its entries sent after the result. *)
Theorem C96_entries_late_refuted : exists es, ~ each entries_first (l_trace (lt_run es)).
Proof.
  exists [EMade; lt_msg 1 (lt_search "dc=com"); lt_ok 0 0; lt_ok 1 0; EEntry 1 (lt_entry 1)]. intros H.
  assert (X : exists a b i op o, l_trace (lt_run [EMade; lt_msg 1 (lt_search "dc=com"); lt_ok 0 0; lt_ok 1 0; EEntry 1 (lt_entry 1)]) = a ++ TWrite 0%nat i op o :: b /\
    (exists t d l, op = OSearchEntry t d l) /\ results 0%nat a <> []).
  { eexists [_; _; _; _; _; _; _], [], _, _, _. split; [vm_compute; reflexivity|]. split; [repeat eexists|]. vm_compute. discriminate. }
  destruct X as (a & b & i & op & o & E & (t & d & l & ->) & R). apply H in E. exact (R E).
Qed.
Print Assumptions C96_entries_late_refuted.
