(** C102: the tool that sets passwords sets each where it belongs, shows only what it made, and says when it fails. *)
From Verif Require Import Base BaseFacts Utf8Model DnModel DnSpec UtilModel ToolsModel PasswdModel PasswdSpec PasswdProofs.

(** At any time, whatever has happened and in whatever order: what can be seen has the shape of the
    specification. For each DN the events so far are a history of that DN; nothing is asked before the bind
    is granted; and the run is ended, once, exactly when the bind is refused or all is done for each DN. *)
Theorem C102_shape : forall io binddn bind_password dns generated l,
  shape io binddn bind_password dns generated (w_trace (run io binddn bind_password dns generated l)).
Proof. exact run_shape. Qed.
Print Assumptions C102_shape.
(** The same for one DN, with nothing left out: all events about it, in order, are one history of it. *)
Theorem C102_each : forall io binddn bind_password dns generated l k, let tr := w_trace (run io binddn bind_password dns generated l) in
  view k tr = [] \/ exists dn b, nth_error dns k = Some dn /\ history io generated k dn (view k tr) b.
Proof. intros. apply (shape_view io binddn bind_password dns generated). apply run_shape. Qed.
Print Assumptions C102_each.
(** Passwords and results are those of the DN they are used for. *)
Theorem C102_source : forall io binddn bind_password dns generated l e,
  In e (w_trace (run io binddn bind_password dns generated l)) -> exists i, In i l /\ came_from bind_password generated i e.
Proof. exact run_from. Qed.
Print Assumptions C102_source.
(** A password is set for the DN it was got for, after the bind, and no second one is. *)
Theorem C102_set : forall io binddn bind_password dns generated l k d pw, let tr := w_trace (run io binddn bind_password dns generated l) in
  In (SSet k d pw) tr -> exists dn, nth_error dns k = Some dn /\ parse_dn io dn = Ok d /\ In (SGot k (Ok [pw])) tr /\
    In (SBound (Ok tt)) tr /\ (forall d' pw', In (SSet k d' pw') tr -> d' = d /\ pw' = pw).
Proof. exact run_set. Qed.
Print Assumptions C102_set.
(** Without a DN on the command line, the only password that changes is the one of the DN that binds. With
    some, none changes but theirs. *)
Theorem C102_default : forall io binddn bind_password args generated l k d pw,
  In (SSet k d pw) (w_trace (run io binddn bind_password (dn_list binddn args) generated l)) ->
  exists dn, parse_dn io dn = Ok d /\ match args with [] => dn = binddn /\ k = 0%nat | _ => nth_error args k = Some dn end.
Proof.
  intros io binddn bind_password args generated l k d pw H. apply run_set in H. destruct H as (dn & D & P & _). exists dn. split; [exact P|].
  destruct args as [|a r]; [|exact D]. destruct k as [|[|k]]; cbn in D; [|discriminate|discriminate]. split; congruence.
Qed.
Print Assumptions C102_default.
(** A password is shown just when it was generated and has been set; one that was typed never is. *)
Theorem C102_print : forall io binddn bind_password dns generated l k dn pw, let tr := w_trace (run io binddn bind_password dns generated l) in
  In (SPrint k dn pw) tr <-> generated = true /\ nth_error dns k = Some dn /\ (exists d, In (SSet k d pw) tr) /\ exists u, In (SResult k (Ok u)) tr.
Proof. exact run_print. Qed.
Print Assumptions C102_print.
(** The exit status is 1 just when the bind was refused or a change was. *)
Theorem C102_exit : forall io binddn bind_password dns generated l, let w := run io binddn bind_password dns generated l in
  exit_status w = 1%Z <-> (exists x, In (SBound (Err x)) (w_trace w)) \/ (exists k x, In (SResult k (Err x)) (w_trace w)).
Proof. exact run_exit. Qed.
Print Assumptions C102_exit.

Definition wx_io : Z -> Z -> res Z := fun _ _ => Err EValue.
Definition wx_run := run wx_io (S_ "cn=admin") (Some (S_ "s")).
Definition wx_typed : nat -> res str := fun k => match k with O => Ok (S_ "p0") | S O => Ok (S_ "p1") | _ => Err EValue end.
Definition wx_never : nat -> option (res unit) := fun _ => None.
Definition wx_cn (s : string) : dn := [[mkAtv (S_ "cn") (S_ s)]].
(** Two DNs, generated: the second password comes first, its change is granted, and the other is refused. *)
Example C102_case : let w := wx_run [S_ "cn=a"; S_ "cn=b"] true
    [IMade (Err EValue); IBound (Ok tt) wx_typed wx_never; IPassword 1 (Ok [S_ "x1"]) wx_never; IResult 1 (Ok tt); IPassword 0 (Ok [S_ "x0"]) wx_never; IResult 0 (Err (ELdap 53))] in
  w_trace w = [SBind (Some (S_ "cn=admin", S_ "s")); SBound (Ok tt); SStart 0; SStart 1; SGot 1 (Ok [S_ "x1"]); SSet 1 (wx_cn "b") (S_ "x1"); SResult 1 (Ok tt); SPrint 1 (S_ "cn=b") (S_ "x1");
    SGot 0 (Ok [S_ "x0"]); SSet 0 (wx_cn "a") (S_ "x0"); SResult 0 (Err (ELdap 53)); SFail (Some 0%nat) (ELdap 53); SClose; SStop] /\ exit_status w = 1%Z.
Proof. vm_compute. split; reflexivity. Qed.
Example C102_default_case : In (SSet 0 (wx_cn "admin") (S_ "p0")) (w_trace (wx_run (dn_list (S_ "cn=admin") []) false [IMade (Err EValue); IBound (Ok tt) wx_typed wx_never])) /\
  In (SSet 1 (wx_cn "b") (S_ "p1")) (w_trace (wx_run (dn_list (S_ "cn=admin") [S_ "cn=a"; S_ "cn=b"]) false [IMade (Err EValue); IBound (Ok tt) wx_typed wx_never])).
Proof. vm_compute. tauto. Qed.
(** The same, typed: nothing is shown. *)
Example C102_typed_case : let w := wx_run [S_ "cn=a"; S_ "cn=b"] false [IMade (Err EValue); IBound (Ok tt) wx_typed wx_never; IResult 1 (Ok tt); IResult 0 (Ok tt)] in
  w_trace w = [SBind (Some (S_ "cn=admin", S_ "s")); SBound (Ok tt); SAsk 0 (S_ "cn=a"); SGot 0 (Ok [S_ "p0"]); SSet 0 (wx_cn "a") (S_ "p0"); SAsk 1 (S_ "cn=b"); SGot 1 (Ok [S_ "p1"]); SSet 1 (wx_cn "b") (S_ "p1");
    SResult 1 (Ok tt); SResult 0 (Ok tt); SClose; SStop] /\ exit_status w = 0%Z.
Proof. vm_compute. split; reflexivity. Qed.

(** *** What does not hold *)
(** An exception of the prompt, or of starting the generator, is the end of all: the run never stops. *)
Theorem C102_raised : forall io binddn bind_password dns generated l x, let w := run io binddn bind_password dns generated l in
  In (SRaised x) (w_trace w) -> ~ In SStop (w_trace w) /\ ~ In SClose (w_trace w).
Proof. exact run_raised. Qed.
Print Assumptions C102_raised.
Example C102_raised_case : In (SRaised EValue) (w_trace (wx_run [S_ "cn=a"; S_ "cn=b"; S_ "cn=c"] false [IMade (Err EValue); IBound (Ok tt) wx_typed wx_never])).
Proof. vm_compute. tauto. Qed.
(** There are such runs: after them nothing that can happen ends the tool. *)
Theorem C102_stops_refuted : exists dns l, forall l', ~ In SStop (w_trace (wx_run dns false (l ++ l'))).
Proof.
  exists [S_ "cn=a"; S_ "cn=b"; S_ "cn=c"], [IMade (Err EValue); IBound (Ok tt) wx_typed wx_never]. intros l'.
  apply (run_raised wx_io (S_ "cn=admin") (Some (S_ "s")) _ false _ EValue). unfold run. rewrite fold_left_app.
  pose proof C102_raised_case as H. unfold wx_run, run in H. revert H. generalize (fold_left (step wx_io (S_ "cn=admin") (Some (S_ "s")) [S_ "cn=a"; S_ "cn=b"; S_ "cn=c"] false) [IMade (Err EValue); IBound (Ok tt) wx_typed wx_never] passwd0).
  induction l' as [|i l' IH]; intros w H; [exact H|]. cbn [fold_left]. apply IH. now apply step_keeps.
Qed.
Print Assumptions C102_stops_refuted.
(** A password that could not be generated is reported, but the exit status is 0. *)
Theorem C102_pwgen_refuted : exists l, let w := wx_run [S_ "cn=a"] true l in
  In (SPwgen 0 EPwgen) (w_trace w) /\ In SStop (w_trace w) /\ (forall d pw, ~ In (SSet 0 d pw) (w_trace w)) /\ exit_status w = 0%Z.
Proof.
  exists [IMade (Err EValue); IBound (Ok tt) wx_typed wx_never; IPassword 0 (Err EPwgen) wx_never].
  split; [vm_compute; tauto|]. split; [vm_compute; tauto|]. split; [|reflexivity]. intros d pw H. vm_compute in H. repeat (destruct H as [H|H]; [discriminate|]). exact H.
Qed.
Print Assumptions C102_pwgen_refuted.
(** Nor does a DN that cannot be read change it, and nothing at all is said. *)
Theorem C102_bad_dn_refuted : exists dn, let w := wx_run [dn] false [IMade (Err EValue); IBound (Ok tt) wx_typed wx_never] in
  w_trace w = [SBind (Some (S_ "cn=admin", S_ "s")); SBound (Ok tt); SAsk 0 dn; SGot 0 (Ok [S_ "p0"]); SClose; SStop] /\ exit_status w = 0%Z.
Proof. exists (S_ "nobody"). vm_compute. split; reflexivity. Qed.
Print Assumptions C102_bad_dn_refuted.
