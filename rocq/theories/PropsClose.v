(** C84: no connection to a server outlives its client: the simple proxy and the merging server (for
    ProxyBase, C76). *)
From Verif Require Import Base BaseFacts BerModel LdapModel LdapSpec ServerModel ClientModel ProxyModel ProxySpec PropsProxy SimpleProxyModel SimpleProxySpec SimpleProxyEnd MergerModel CloseSpec MergerEnd.

(** C84, the simple proxy. Whatever happens on all connections: once the client of [c] has gone, the
    connection to its server is closed if it is still up, and nothing more is sent to it. Before it is
    closed the server is sent an unbind, unless the client asked for one; then no second one. Missing:
    a server that is connected only after the client has gone ([C84_simple_late_refuted]). *)
Theorem C84_simple_closed_partial : forall next es c, server_first c es -> let s := srun (s0 next) es in
  (In (SGone c) (s_trace s) -> l_up (sc_link (s_conns s c)) = true -> In (SCloseServer c) (s_trace s)) /\
  quiet_after c (s_trace s).
Proof. intros next es c F s. destruct (ended_run c next es F) as (E & _). split; [exact (e_close c _ E)|exact (e_quiet c _ E)]. Qed.
Print Assumptions C84_simple_closed_partial.
Theorem C84_simple_unbind_partial : forall next es c, server_first c es -> let s := srun (s0 next) es in
  let asked_to := exists id op, In (id, op) (asked c (s_trace s)) /\ is_unbind op in
  (In (SCloseServer c) (s_trace s) -> In (SUnbind c) (s_trace s) \/ asked_to) /\
  ~ (In (SUnbind c) (s_trace s) /\ asked_to).
Proof.
  intros next es c F s asked_to. destruct (ended_run c next es F) as (E & _). change (ended c s) in E.
  assert (A : forall id op, In (id, op) (asked c (s_trace s)) <-> In (SGot c id op) (s_trace s)).
  { intros id op. unfold asked. rewrite in_flat_map. split.
    - intros (e & I & J). destruct e; try destruct J. destruct (Nat.eqb_spec c0 c) as [->|]; [|destruct J]. destruct J as [J|[]]. now injection J as -> ->.
    - intros I. exists (SGot c id op). split; [exact I|]. rewrite Nat.eqb_refl. now left. }
  split.
  - intros I. destruct (e_sent c s E I) as [X|(id & op & X & Y)]; [now left|]. right. exists id, op. split; [now apply A|exact Y].
  - intros (I & id & op & X & Y). apply A in X. exact (e_unbind c s E I id op X Y).
Qed.
Print Assumptions C84_simple_unbind_partial.
(** A client that goes before the server is connected: then its requests are sent, and the connection
    stays. *)
Theorem C84_simple_late_refuted : exists next es c, let s := srun (s0 next) es in
  In (SGone c) (s_trace s) /\ l_up (sc_link (s_conns s c)) = true /\ ~ In (SCloseServer c) (s_trace s) /\ ~ quiet_after c (s_trace s).
Proof.
  exists 1, [SMade 0; SRequest 0 (px_msg 7 px_bind); SLost 0; SUp 0]%nat, 0%nat. cbn zeta.
  assert (E : s_trace (srun (s0 1) [SMade 0; SRequest 0 (px_msg 7 px_bind); SLost 0; SUp 0]%nat) = [SGot 0 (VInt 7) px_bind; SRaised 0 EAssert; SGone 0; SForward 0 1 px_bind (VInt 7)]) by (vm_compute; reflexivity).
  rewrite E. split; [right; right; now left|]. split; [vm_compute; reflexivity|]. split; [intros [X|[X|[X|[X|[]]]]]; discriminate|].
  intros Q. apply (Q [SGot 0 (VInt 7) px_bind; SRaised 0 EAssert] [SForward 0 1 px_bind (VInt 7)] eq_refl 1 px_bind (VInt 7)). now left.
Qed.
Print Assumptions C84_simple_late_refuted.

(** C84, the merging server: the same for each backend. *)
Theorem C84_merged_closed_partial : forall configs tls next es, backends_first es -> let s := mrun configs tls next es in
  (In MGone (m_trace s) -> forall j, l_up (m_links s j) = true -> In (MCloseServer j) (m_trace s)) /\
  mquiet_after (m_trace s).
Proof.
  intros configs tls next es F s. destruct (mended_run configs tls next es F) as (E & _). change (mended s) in E. split; [|exact (me_quiet s E)].
  intros I j U. destruct (m_conn s) as [[]|] eqn:C; try (exfalso; apply (proj1 (me_open s E ltac:(rewrite C; discriminate))); exact I). exact (proj1 (proj2 (me_gone s E C)) j U).
Qed.
Print Assumptions C84_merged_closed_partial.
Theorem C84_merged_unbind_partial : forall configs tls next es, backends_first es -> let s := mrun configs tls next es in
  let asked_to := exists id op, In (MGot id op) (m_trace s) /\ is_unbind op in
  forall j, (In (MCloseServer j) (m_trace s) -> In (MUnbind j) (m_trace s) \/ asked_to) /\ ~ (In (MUnbind j) (m_trace s) /\ asked_to).
Proof.
  intros configs tls next es F s asked_to j. destruct (mended_run configs tls next es F) as (E & _). change (mended s) in E.
  split; [exact (me_sent s E j)|]. intros (I & A). exact (me_unbind s E (ex_intro _ j I) A).
Qed.
Print Assumptions C84_merged_unbind_partial.
(** A backend that is connected after the client has gone stays connected. *)
Theorem C84_merged_late_refuted : exists configs tls next es j, let s := mrun configs tls next es in
  In MGone (m_trace s) /\ l_up (m_links s j) = true /\ ~ In (MCloseServer j) (m_trace s).
Proof.
  exists 2%nat, 2%nat, 1, [MMade; MUp 0; MLost; MUp 1]%nat, 1%nat. cbn zeta.
  assert (E : m_trace (mrun 2 2 1 [MMade; MUp 0; MLost; MUp 1]%nat) = [MUnbind 0; MCloseServer 0; MGone]) by (vm_compute; reflexivity).
  rewrite E. split; [right; right; now left|]. split; [vm_compute; reflexivity|]. intros [X|[X|[X|[]]]]; discriminate.
Qed.
Print Assumptions C84_merged_late_refuted.

(** Two clients of the simple proxy: one goes without unbinding, the other unbinds first. *)
Definition close_es : list sevent :=
  [SMade 0; SUp 0; SMade 1; SUp 1; SRequest 0 (px_msg 7 px_bind); SRequest 1 (px_msg 8 (ONull KUnbind 66)); SLost 0; SLost 1]%nat.
Example C84_case : server_first 0 close_es /\ server_first 1 close_es /\
  s_trace (srun (s0 1) close_es) =
    [SGot 0 (VInt 7) px_bind; SForward 0 1 px_bind (VInt 7); SGot 1 (VInt 8) (ONull KUnbind 66); SForward 1 2 (ONull KUnbind 66) (VInt 8);
     SUnbind 0; SCloseServer 0; SGone 0; SCloseServer 1; SGone 1]%nat.
Proof.
  assert (F : forall c, server_first c close_es).
  { intros c a b E I. unfold close_es in E. do 6 (destruct a as [|? a]; [discriminate E|injection E as _ E]). destruct a as [|? a]; [injection E as _ <-; destruct I as [I|[]]; discriminate|injection E as _ E].
    destruct a as [|? a]; [injection E as _ <-; destruct I|injection E as _ E]. destruct a; discriminate E. }
  split; [apply F|]. split; [apply F|]. vm_compute. reflexivity.
Qed.
Example C84_case_merged : backends_first [MMade; MUp 1; MUp 0; MRequest (px_msg 7 px_bind); MLost]%nat /\
  m_trace (mrun 2 2 1 [MMade; MUp 1; MUp 0; MRequest (px_msg 7 px_bind); MLost]%nat) =
    [MGot (VInt 7) px_bind; MForward 1 1 px_bind (VInt 7); MForward 0 2 px_bind (VInt 7); MUnbind 1; MCloseServer 1; MUnbind 0; MCloseServer 0; MGone]%nat.
Proof.
  split; [|vm_compute; reflexivity]. intros a b E j I. do 4 (destruct a as [|? a]; [discriminate E|injection E as _ E]). destruct a as [|? a]; [injection E as <-; destruct I|injection E as _ E]. destruct a; discriminate E.
Qed.
