(** C106: the tool that finds a free number prints one that it was told is free, and is quick once there is one. *)
From Verif Require Import Base BaseFacts Utf8Model UtilModel UtilProofs FreeNumberModel FreeNumberSpec FreeNumberProofs.
From Coq Require Import Lia.

(** A number that is printed was asked for and no entry had it, and it is the first, or its predecessor was
    asked for and some entry had that. The directory may change as it likes in between. *)
Theorem C106_free : forall base l t, In (GPrint t) (g_trace (free_run base l)) ->
  exists n, t = dec n ++ [10] /\ was_told (g_trace (free_run base l)) n 0 /\
    (n = 1000 \/ 1000 < n /\ exists c, was_told (g_trace (free_run base l)) (n - 1) (S c)).
Proof. intros base l. apply (run_shaped base l). Qed.
Print Assumptions C106_free.
(** Questions and replies come in turn, and the tool ends in one way, once. *)
Theorem C106_session : forall base l, session (g_trace (free_run base l)).
Proof. intros base l. apply (run_shaped base l). Qed.
Print Assumptions C106_session.
(** The exit status is 1 just when there was no base DN, or a failure was printed. *)
Theorem C106_exit : forall base l, free_exit (free_run base l) = 1%Z <->
  In GNoBase (g_trace (free_run base l)) \/ exists x, In (GFail x) (g_trace (free_run base l)).
Proof.
  intros base l. destruct (run_shaped base l) as (_ & E & _). rewrite <- E. unfold free_exit. destruct (g_exit (free_run base l)); split; auto; discriminate.
Qed.
Print Assumptions C106_exit.
(** Once a number was found to be free, nine questions are enough. *)
Theorem C106_quick : forall base l a b, g_trace (free_run base l) = a ++ GReply (Ok 0%nat) :: b -> (searches b <= 9)%nat.
Proof. exact run_narrow. Qed.
Print Assumptions C106_quick.

Definition gx_in : list gin := [KConnected (Ok tt); KReply (Ok 1%nat); KReply (Ok 0%nat); KReply (Ok 0%nat); KReply (Ok 0%nat); KReply (Ok 0%nat); KReply (Ok 0%nat); KReply (Ok 0%nat); KReply (Ok 0%nat); KReply (Ok 2%nat); KReply (Ok 0%nat); KReply (Err EValue)].
Definition gx_s (n : Z) : gevent := GSearch (S_ "uidNumber") (dec n) 1.
Example C106_case : let w := free_run true gx_in in
  g_trace w = [GConnect; gx_s 1000; GReply (Ok 1%nat); gx_s 1500; GReply (Ok 0%nat); gx_s 1250; GReply (Ok 0%nat); gx_s 1125; GReply (Ok 0%nat); gx_s 1062; GReply (Ok 0%nat);
    gx_s 1031; GReply (Ok 0%nat); gx_s 1015; GReply (Ok 0%nat); gx_s 1007; GReply (Ok 0%nat); gx_s 1003; GReply (Ok 2%nat); gx_s 1005; GReply (Ok 0%nat); gx_s 1004] ++
    [GReply (Err EValue); GFail EValue; GStop] /\ free_exit w = 1%Z.
Proof. vm_compute. split; reflexivity. Qed.
Example C106_printed_case : let w := free_run true (firstn 11 gx_in ++ [KReply (Ok 1%nat)]) in
  In (GPrint (S_ "1005" ++ [10])) (g_trace w) /\ free_exit w = 0%Z.
Proof. vm_compute. split; [|reflexivity]. do 23 right. left. reflexivity. Qed.

(** *** What does not hold *)
(** The number is not the least that is free, even if nothing changes: here 1001 is free, 1500 is not. *)
Theorem C106_least_refuted : exists (has : Z -> nat) l n, In (GPrint (dec n ++ [10])) (g_trace (free_run true l)) /\
  (forall m c, was_told (g_trace (free_run true l)) m c -> c = has m) /\ has 1001 = 0%nat /\ 1001 < n.
Proof.
  exists (fun m => if (m =? 1000) || (m =? 1500) then 1%nat else 0%nat),
    (KConnected (Ok tt) :: KReply (Ok 1%nat) :: KReply (Ok 1%nat) :: repeat (KReply (Ok 0%nat)) 9), 1501.
  split; [vm_compute; do 23 right; left; reflexivity|]. split; [|split; [reflexivity|lia]].
  intros m c H. apply told_pairs in H.
  assert (E : pairs (g_trace (free_run true (KConnected (Ok tt) :: KReply (Ok 1%nat) :: KReply (Ok 1%nat) :: repeat (KReply (Ok 0%nat)) 9))) =
    (dec 1000, 1%nat) :: (dec 1500, 1%nat) :: map (fun k => (dec k, 0%nat)) [2000; 1750; 1625; 1562; 1531; 1515; 1507; 1503; 1501]) by (vm_compute; reflexivity).
  rewrite E in H. cbn [map In] in H.
  repeat (destruct H as [H|H]; [apply pair_equal_spec in H; destruct H as [H <-]; apply dec_inj in H; subst m; reflexivity|]). destruct H.
Qed.
Print Assumptions C106_least_refuted.
(** And nothing ends the questions, as long as every number that is asked for is found: they go up by 500. *)
Theorem C106_endless_refuted : forall u cs, exists mn,
  g_state (free_run true (KConnected (Ok u) :: map (fun c => KReply (Ok (S c))) cs)) = GGuessing mn None (1000 + 500 * Z.of_nat (length cs)).
Proof. exact run_endless. Qed.
Print Assumptions C106_endless_refuted.
