(** C58: the simple proxy, any number of connections. *)
From Verif Require Import Base BaseFacts BerModel LdapModel LdapSpec LdapProofs ServerModel ClientModel ProxyModel ProxySpec PropsProxy SimpleProxyModel SimpleProxySpec SimpleProxyProofs.

(** ** C58 *)
(** Whatever happens on all the connections: what reaches the server of connection [c], followed by what
    still waits for it, is what the client of [c] asked, in that order, possibly with some left out. *)
Theorem C58_own_in_order : forall next es c, let s := srun (s0 next) es in
  subseq (passed c (s_trace s) ++ pending c (s_waiting s)) (asked c (s_trace s)).
Proof. intros next es c s. exact (proj1 (proj2 (run_inv c next es))). Qed.
Print Assumptions C58_own_in_order.
(** While both peers of [c] stay, the requests can be encoded, and nothing waits for [c] when the server of
    another connection comes up: none is left out, and once its own server is connected none waits.
    Missing: the condition on other connections, without which it is false ([C58_isolated_refuted]). *)
Theorem C58_isolated_partial : forall N next es c, 0 <= next -> Forall (stays c) es -> undisturbed c (s0 next) es -> let s := srun (s0 next) es in
  (s_next s <= N -> Forall (fun r => encodable N (snd r)) (asked c (s_trace s)) -> passed c (s_trace s) ++ pending c (s_waiting s) = asked c (s_trace s)) /\
  (sc_client (s_conns s c) = true -> pending c (s_waiting s) = []).
Proof. intros N next es c. exact (run_complete c N next es). Qed.
Print Assumptions C58_isolated_partial.
(** A request waits on one connection; the server of another one comes up, then that of the first; the request is never passed on. *)
Theorem C58_isolated_refuted : exists next es c, 0 <= next /\ Forall (stays c) es /\ let s := srun (s0 next) es in
  s_next s <= 2 ^ 64 /\ Forall (fun r => encodable (2 ^ 64) (snd r)) (asked c (s_trace s)) /\ sc_client (s_conns s c) = true /\ s_waiting s = [] /\
  length (asked c (s_trace s)) = 1%nat /\ passed c (s_trace s) = [].
Proof.
  exists 1, [SMade 0%nat; SMade 1%nat; SRequest 0 (px_msg 7 (px_search (B "dc=a"))); SUp 1; SUp 0], 0%nat.
  split; [lia|]. split; [repeat (constructor; [exact I|]); constructor|]. cbn zeta.
  split; [vm_compute; discriminate|]. split; [|split; [vm_compute; reflexivity|]; split; [vm_compute; reflexivity|]; split; vm_compute; reflexivity].
  assert (E : asked 0 (s_trace (srun (s0 1) [SMade 0%nat; SMade 1%nat; SRequest 0 (px_msg 7 (px_search (B "dc=a"))); SUp 1; SUp 0])) = [(VInt 7, px_search (B "dc=a"))]) by (vm_compute; reflexivity).
  rewrite E. apply Forall_cons; [|constructor]. apply request_encodable. vm_compute. reflexivity.
Qed.
Print Assumptions C58_isolated_refuted.
(** What the client of [c] is sent answers a request of that client, and was received from its own server. *)
Theorem C58_replies_own : forall next es c id v b, let s := srun (s0 next) es in
  In (SReply c id v b) (s_trace s) -> In (SArrived c b v) (s_trace s) /\ exists op, In (SGot c id op) (s_trace s).
Proof. intros next es c id v b s I. exact (proj2 (w_rep _ (proj1 (run_inv c next es)) _ _ _ _ I)). Qed.
Print Assumptions C58_replies_own.
(** For each request that was passed on: the client is sent, under the id of that request, the responses to it in order, possibly with some left out;
    none is left out while both peers stay and the responses can be encoded. *)
Theorem C58_responses : forall next es c b op id, let s := srun (s0 next) es in In (SForward c b op id) (s_trace s) ->
  subseq (told c b (s_trace s)) (map (pair id) (answered c b (s_trace s))) /\
  (Forall (stays c) es -> Forall (writable id) (answered c b (s_trace s)) -> told c b (s_trace s) = map (pair id) (answered c b (s_trace s))).
Proof. intros next es c b op id s I. destruct (run_answers c next es) as (A & T). split; [exact (A b op id I)|]. intros F. exact (proj1 (T F) b op id I). Qed.
Print Assumptions C58_responses.
(** No two requests are passed on under the same message id, over the same or over different connections. *)
Theorem C58_ids : forall next es c c' b op op' id id', let s := srun (s0 next) es in
  In (SForward c b op id) (s_trace s) -> In (SForward c' b op' id') (s_trace s) -> c' = c /\ op' = op /\ id' = id.
Proof. intros next es c c' b op op' id id' s. exact (w_uniq _ (proj1 (run_inv c next es)) _ _ _ _ _ _ _). Qed.
Print Assumptions C58_ids.
(** After the response that ends a search or a bind the client is sent nothing more for it. *)
Theorem C58_ends : forall next es c b l id v r, told c b (s_trace (srun (s0 next) es)) = l ++ (id, v) :: r -> ends v -> r = [].
Proof. intros next es c b l id v r E EN. exact (proj1 (run_ended c b next es l id v r E EN)). Qed.
Print Assumptions C58_ends.

(** Two connections: on the first a request waits until its server is connected; then the second does the same; both are answered. *)
Definition sp_es : list sevent :=
  [SMade 0; SRequest 0 (px_msg 7 (px_search (B "dc=a"))); SUp 0; SMade 1; SRequest 1 (px_msg 7 (px_search (B "dc=b"))); SRequest 1 (px_msg 8 px_bind); SUp 1;
   SRequest 0 (px_msg 9 (px_search (B "dc=c"))); SResponse 1 (px_msg 2 (px_entry (B "cn=x,dc=b"))); SResponse 0 (px_msg 1 (px_done 0)); SResponse 0 (px_msg 4 (px_done 32)); SResponse 1 (px_msg 2 (px_done 0)); SResponse 1 (px_msg 2 (px_done 0))]%nat.
Example C58_case : let s := srun (s0 1) sp_es in
  passed 0 (s_trace s) = [(VInt 7, px_search (B "dc=a")); (VInt 9, px_search (B "dc=c"))] /\ passed 1 (s_trace s) = [(VInt 7, px_search (B "dc=b")); (VInt 8, px_bind)] /\
  told 1 2 (s_trace s) = [(VInt 7, px_entry (B "cn=x,dc=b")); (VInt 7, px_done 0)] /\ told 0 4 (s_trace s) = [(VInt 9, px_done 32)] /\
  Forall (stays 0) sp_es /\ Forall (stays 1) sp_es /\ undisturbed 0 (s0 1) sp_es /\ s_next s = 5.
Proof.
  cbn zeta. split; [vm_compute; reflexivity|]. split; [vm_compute; reflexivity|]. split; [vm_compute; reflexivity|]. split; [vm_compute; reflexivity|].
  split; [repeat (apply Forall_cons; [exact I|]); constructor|]. split; [repeat (apply Forall_cons; [exact I|]); constructor|]. split; [|vm_compute; reflexivity].
  intros es1 d es2 E ND. unfold sp_es in E.
  repeat match type of E with _ = es1 ++ _ => destruct es1 as [|? es1]; cbn [app] in E; [try discriminate E; injection E as E1 _; rewrite <- ?E1 in *; first [contradiction ND; reflexivity|vm_compute; reflexivity]|apply f_equal with (f := @tl sevent) in E as E'; injection E as <- _; cbn [tl] in E'; rename E' into E] end.
  destruct es1; discriminate E.
Qed.
