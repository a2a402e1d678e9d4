(** C59: the merging server. *)
From Verif Require Import Base BaseFacts BerModel LdapModel LdapSpec LdapProofs ServerModel ClientModel ProxyModel ProxySpec PropsProxy MergerModel MergerSpec MergerProofs.

(** ** C59 *)
(** While the client stays and the responses can be written: of the final responses for a request, in the order they came,
    the client has been sent one for each group of as many as there are backends; fewer than that are left. The one sent is
    one of the group, and is successful exactly if one of the group is. *)
Theorem C59_groups : forall configs tls next es id, Forall client_stays es -> let t := m_trace (mrun configs tls next es) in all_written t -> (0 < configs)%nat ->
  exists d q, finals id t = d ++ q /\ chunks configs d (outs id t) /\ (length q < configs)%nat.
Proof.
  intros configs tls next es id F t AW P. destruct (i_merge _ _ (run_inv configs tls next es F) AW id) as ((d & q & E & C & M) & _). exists d, q. split; [exact E|]. split; [exact C|].
  destruct (map_get id _) as [(n & l)|]; [tauto|]. subst q. exact P.
Qed.
Print Assumptions C59_groups.
(** Every backend has sent its final response for [id]: the client has one, which is one of theirs, and successful exactly if one of theirs is. *)
Theorem C59_once_partial : forall configs tls next es id, Forall client_stays es -> let t := m_trace (mrun configs tls next es) in all_written t -> (0 < configs)%nat ->
  (forall j, (j < configs)%nat -> length (finals_from j id t) = 1%nat) -> exists v, outs id t = [v] /\ stands_for (finals id t) v.
Proof.
  intros configs tls next es id F t AW P ONE. pose proof (C59_groups configs tls next es id F AW P) as X. cbn zeta in X. fold t in X. destruct X as (d & q & E & C & L).
  assert (S : length (finals id t) = configs).
  { unfold t. rewrite (finals_sum configs) by exact (i_from _ _ (run_inv configs tls next es F)). rewrite (list_sum_all _ _ 1%nat); [rewrite seq_length; lia|]. intros j I. apply in_seq in I. apply ONE. lia. }
  pose proof (chunks_len _ _ _ C) as LD. rewrite E, app_length in S. destruct (outs id t) as [|v [|w r]]; cbn [length] in LD; [exfalso; nia| |exfalso; nia].
  assert (q = []) by (destruct q; [reflexivity|cbn in *; nia]). subst q. rewrite app_nil_r in E. exists v. split; [reflexivity|]. rewrite E. exact (chunks_one _ _ _ C).
Qed.
Print Assumptions C59_once_partial.
(** An id the client has used once: no backend sends more than one final response that counts for it, the client is sent at most one, and
    none before every backend has sent its own. *)
Theorem C59_not_before : forall configs tls next es id, Forall client_stays es -> let t := m_trace (mrun configs tls next es) in all_written t -> (0 < configs)%nat -> (uses id t <= 1)%nat ->
  (forall j, (length (finals_from j id t) <= 1)%nat) /\ (length (outs id t) <= 1)%nat /\
  (forall j, (j < configs)%nat -> finals_from j id t = [] -> outs id t = []).
Proof.
  intros configs tls next es id F t AW P U. pose proof (C59_groups configs tls next es id F AW P) as X. cbn zeta in X. fold t in X. destruct X as (d & q & E & C & L). pose proof (run_inv configs tls next es F) as V.
  assert (ONE : forall j, (length (finals_from j id t) <= 1)%nat). { intros j. destruct (i_merge _ _ V AW id) as (_ & _ & CT). pose proof (CT j) as X. fold t in X. lia. }
  pose proof (chunks_len _ _ _ C) as LD. pose proof (finals_sum configs id t (i_from _ _ V)) as FS. pose proof (f_equal (@length obj) E) as FE. rewrite app_length in FE.
  assert (LS : (list_sum (map (fun j => length (finals_from j id t)) (seq 0 configs)) <= configs)%nat).
  { etransitivity; [apply (list_sum_le _ _ 1%nat); intros; apply ONE|]. rewrite seq_length. lia. }
  split; [exact ONE|]. split; [destruct (outs id t) as [|v [|w r]]; cbn [length] in *; nia|].
  intros j LT Z. destruct (outs id t) as [|v r]; [reflexivity|]. exfalso. cbn [length] in LD.
  assert (SP : seq 0 configs = seq 0 j ++ j :: seq (S j) (configs - S j)). { replace configs with (j + S (configs - S j))%nat at 1 by lia. rewrite seq_app. reflexivity. }
  rewrite SP, map_app, list_sum_app in FS. cbn [map] in FS. change (list_sum (?x :: ?y)) with (x + list_sum y)%nat in FS. rewrite Z in FS. cbn [length] in FS.
  pose proof (list_sum_le (fun j => length (finals_from j id t)) (seq 0 j) 1%nat (fun x _ => ONE x)) as A1. pose proof (list_sum_le (fun j => length (finals_from j id t)) (seq (S j) (configs - S j)) 1%nat (fun x _ => ONE x)) as A2. rewrite seq_length in A1, A2.
  nia.
Qed.
Print Assumptions C59_not_before.
(** Entries and references are passed on in the order they come. *)
Theorem C59_entries : forall configs tls next es id, Forall client_stays es -> let t := m_trace (mrun configs tls next es) in all_written t -> entries_out id t = entries_in id t.
Proof. intros configs tls next es id F t AW. exact (proj1 (proj2 (i_merge _ _ (run_inv configs tls next es F) AW id))). Qed.
Print Assumptions C59_entries.
(** While all stay and the requests can be encoded: once all backends are connected, each has been sent the requests that are to be merged, in order; before, they wait and none has been sent any. *)
Theorem C59_to_all : forall configs tls N next es, 0 <= next -> Forall client_stays es -> Forall servers_stay es -> let s := mrun configs tls next es in
  m_next s <= N -> Forall (fun r => encodable N (snd r)) (wanted (m_trace s)) ->
  (m_all s = true -> length (m_clients s) = configs /\ m_waiting s = [] /\ forall j, In j (m_clients s) -> sent_to j (m_trace s) = wanted (m_trace s)) /\
  (m_all s = false -> m_waiting s = wanted (m_trace s) /\ forall j, sent_to j (m_trace s) = []).
Proof.
  intros configs tls N next es L C S s LN EN. destruct (run_fw configs tls N next es L C S) as [F1 F2 F3 F4]. destruct (F4 LN EN) as (X & Y). split.
  - intros A. destruct (Y A) as (Y1 & Y2). split; [exact (proj1 (g_all _ _ (i_good _ _ (run_inv configs tls next es C)) A))|]. split; [exact Y1|exact Y2].
  - intros A. split; [exact (X A)|exact (F3 A)].
Qed.
Print Assumptions C59_to_all.
(** Requests that cannot be merged are answered with unwillingToPerform, and go nowhere. *)
Theorem C59_refused : forall configs tls next es tag i op cs, let s := mrun configs tls next es in m_conn s = Some true -> i <> 0 -> refused_op op ->
  exists v, ServerSpec.final_op op v /\ code_of v = VInt 53 /\
  (writable (VInt i) v -> m_trace (mrun configs tls next (es ++ [MRequest (OMessage tag (VInt i) op cs)])) = m_trace s ++ [MGot (VInt i) op; MReply (VInt i) v]).
Proof.
  intros configs tls next es tag i op cs s C NZ R. destruct (refuse_step configs tls s tag i op cs C NZ R) as (v & F & CO & X). exists v. split; [exact F|]. split; [exact CO|]. intros W.
  unfold mrun. rewrite fold_left_app. cbn [fold_left]. fold (mrun configs tls next es). fold s. rewrite (X W). cbn. now rewrite <- app_assoc.
Qed.
Print Assumptions C59_refused.
(** The connection to a backend ends before its final response: the client is never answered, whatever happens later. *)
Theorem C59_lost : forall configs tls next es es' j id, Forall client_stays (es ++ es') -> let s := mrun configs tls next es in let t := m_trace (mrun configs tls next (es ++ es')) in
  (j < configs)%nat -> In j (m_tried s) -> l_up (m_links s j) = false -> finals_from j id (m_trace s) = [] -> all_written t -> (uses id t <= 1)%nat -> outs id t = [].
Proof.
  intros configs tls next es es' j id F s t LT TR UP FF AW U. apply Forall_app in F as (F1 & F2).
  destruct (stuck_run configs tls j es' s (run_inv configs tls next es F1) (conj TR UP) F2) as (_ & o & T & NF).
  assert (ET : t = m_trace s ++ o). { unfold t. rewrite <- T. unfold mrun, s, mrun. now rewrite fold_left_app. }
  refine (proj2 (proj2 (C59_not_before configs tls next (es ++ es') id _ AW _ U)) j LT _); [apply Forall_app; auto|lia|].
  fold t. rewrite ET, finals_from_app, FF, (finals_from_not j id o NF). reflexivity.
Qed.
Print Assumptions C59_lost.

Definition mg_cmp (c : Z) : obj := response_obj (CompareResponse (mkResult c [] [])).
Definition mg_es : list mevent :=
  [MMade; MRequest (px_msg 7 (px_search (B "dc=a"))); MUp 1; MUp 0; MRequest (px_msg 8 (px_search (B "dc=b"))); MResponse 0 (px_msg 2 (px_entry (B "cn=x,dc=a"))); MResponse 1 (px_msg 3 (px_done 32));
   MResponse 1 (px_msg 1 (px_entry (B "cn=y,dc=a"))); MResponse 0 (px_msg 2 (px_done 0)); MResponse 0 (px_msg 4 (px_done 51)); MResponse 1 (px_msg 1 (px_done 32))]%nat.
(** Two searches, answered by two backends in different orders: the first has a success, the second none. *)
Example C59_case : let t := m_trace (mrun 2 2 1 mg_es) in Forall client_stays mg_es /\ Forall servers_stay mg_es /\
  finals (VInt 7) t = [px_done 0; px_done 32] /\ outs (VInt 7) t = [px_done 0] /\ finals (VInt 8) t = [px_done 32; px_done 51] /\ outs (VInt 8) t = [px_done 51] /\
  entries_out (VInt 7) t = [px_entry (B "cn=x,dc=a"); px_entry (B "cn=y,dc=a")] /\ uses (VInt 7) t = 1%nat /\ m_all (mrun 2 2 1 mg_es) = true /\ m_clients (mrun 2 2 1 mg_es) = [1; 0]%nat /\
  length (finals_from 0 (VInt 7) t) = 1%nat /\ length (finals_from 1 (VInt 7) t) = 1%nat.
Proof. cbn zeta. split; [repeat (apply Forall_cons; [exact I|]); constructor|]. split; [repeat (apply Forall_cons; [exact I|]); constructor|]. vm_compute. repeat split. Qed.
Lemma mg_written : all_written (m_trace (mrun 2 2 1 mg_es)).
Proof.
  assert (E : flat_map (fun e => match e with MArrived j b id v => [(id, v)] | _ => [] end) (m_trace (mrun 2 2 1 mg_es)) =
    [(VInt 7, px_entry (B "cn=x,dc=a")); (VInt 8, px_done 32); (VInt 7, px_entry (B "cn=y,dc=a")); (VInt 7, px_done 0); (VInt 8, px_done 51); (VInt 7, px_done 32)]) by (vm_compute; reflexivity).
  revert E. generalize (m_trace (mrun 2 2 1 mg_es)). intros t E j b id v H.
  assert (X : In (id, v) (flat_map (fun e => match e with MArrived j b id v => [(id, v)] | _ => [] end) t)) by (apply in_flat_map; exists (MArrived j b id v); split; [exact H|left; reflexivity]).
  rewrite E in X. clear -X. repeat (destruct X as [X|X]; [injection X as <- <-; eexists; vm_compute; reflexivity|]). destruct X.
Qed.
(** Compare requests are passed to all backends, and the client is sent the response of each: two final responses to one request. *)
Theorem C59_compare_refuted : exists es, Forall client_stays es /\ Forall servers_stay es /\ let t := m_trace (mrun 2 2 1 es) in
  uses (VInt 7) t = 1%nat /\ told_all (VInt 7) t = [mg_cmp 6; mg_cmp 5] /\
  ServerSpec.final_op (request_obj (Compare (B "cn=a") (B "sn") (B "x"))) (mg_cmp 6) /\ ServerSpec.final_op (request_obj (Compare (B "cn=a") (B "sn") (B "x"))) (mg_cmp 5).
Proof.
  exists [MMade; MUp 0%nat; MUp 1%nat; MRequest (px_msg 7 (request_obj (Compare (B "cn=a") (B "sn") (B "x")))); MResponse 0 (px_msg 1 (mg_cmp 6)); MResponse 1 (px_msg 2 (mg_cmp 5))].
  split; [repeat (apply Forall_cons; [exact I|]); constructor|]. split; [repeat (apply Forall_cons; [exact I|]); constructor|]. cbn zeta. split; [vm_compute; reflexivity|]. split; [vm_compute; reflexivity|]. split; exact I.
Qed.
Print Assumptions C59_compare_refuted.
(** A backend that goes: the hypotheses of [C59_lost] are met, and the other backend has succeeded. *)
Example C59_lost_case : let es := [MMade; MUp 0; MUp 1; MRequest (px_msg 7 (px_search (B "dc=a"))); MServerLost 1; MResponse 0 (px_msg 1 (px_done 0))]%nat in let s := mrun 2 2 1 es in
  Forall client_stays es /\ In 1%nat (m_tried s) /\ l_up (m_links s 1) = false /\ finals_from 1 (VInt 7) (m_trace s) = [] /\ finals (VInt 7) (m_trace s) = [px_done 0] /\ uses (VInt 7) (m_trace s) = 1%nat.
Proof. cbn zeta. split; [repeat (apply Forall_cons; [exact I|]); constructor|]. split; [vm_compute; auto|]. vm_compute. repeat split. Qed.
