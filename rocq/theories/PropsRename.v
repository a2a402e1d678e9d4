(** C107: the tool that renames an entry does so once, after a bind with the password it was given. *)
From Verif Require Import Base BaseFacts Utf8Model DnModel RenameModel RenameSpec RenameProofs.
From Coq Require Import Lia.

(** The password of a file descriptor is its first line, without the end. *)
Theorem C107_password : forall fd line r, read_password fd line = r <-> given fd line r.
Proof. exact read_iff. Qed.
Print Assumptions C107_password.
(** Whatever happens, the run is one of the courses: the move comes after a bind that succeeded, with the name
    and password given; it asks for the new name; the exit status is 1 just in those courses that fail. *)
Theorem C107_course : forall io binddn fd line from to pw f t,
  given fd line (Ok pw) -> parse_dn io from = Ok f -> parse_dn io to = Ok t ->
  forall l, course binddn pw f t (r_trace (rename_run io binddn fd line from to l)) (rename_exit (rename_run io binddn fd line from to l)).
Proof.
  intros io binddn fd line from to pw f t G F T. apply run_course. apply read_iff in G. unfold arguments. rewrite G, F, T. reflexivity.
Qed.
Print Assumptions C107_course.
(** If nothing goes wrong the entry is moved. *)
Theorem C107_moved : forall io binddn fd line from to pw f t, given fd line (Ok pw) -> parse_dn io from = Ok f -> parse_dn io to = Ok t ->
  forall typed u v l r s b, t = r :: s -> binddn = Some b -> b <> [] ->
  let w := rename_run io binddn fd line from to (MConnected (Ok typed) :: MBound (Ok u) :: MMoved (Ok v) :: l) in
  r_trace w = RConnect f :: (match pw with Some p => [RBind b p] | None => [RAsk b; RBind b typed] end) ++
    [RBound; RMove (dn_text f) (rdn_text r) (dn_text s); RMoved; RStop] /\ rename_exit w = 0%Z.
Proof.
  intros io binddn fd line from to pw f t G F T. apply run_moved. apply read_iff in G. unfold arguments. rewrite G, F, T. reflexivity.
Qed.
Print Assumptions C107_moved.
(** If the password or a name cannot be read, nothing is sent. *)
Theorem C107_raised : forall io binddn fd line from to,
  (exists x, given fd line (Err x)) \/ (exists x, parse_dn io from = Err x) \/ (exists x, parse_dn io to = Err x) ->
  exists x, forall l, r_trace (rename_run io binddn fd line from to l) = [RRaised x] /\ rename_exit (rename_run io binddn fd line from to l) = 1%Z.
Proof.
  intros io binddn fd line from to H. assert (A : exists x, arguments io fd line from to = Err x).
  { unfold arguments. destruct (read_password fd line) as [pw|x] eqn:G; [|eexists; reflexivity]. cbn [bind].
    destruct (parse_dn io from) as [f|x] eqn:F; [|eexists; reflexivity]. cbn [bind]. destruct (parse_dn io to) as [t|x]; [|eexists; reflexivity].
    destruct H as [(x & H)|[(x & H)|(x & H)]]; try discriminate. apply read_iff in H. congruence. }
  destruct A as (x & A). exists x. now apply run_raised.
Qed.
Print Assumptions C107_raised.

Definition rx_io : Z -> Z -> res Z := fun _ _ => Err EValue.
Definition rx_run fd line := rename_run rx_io (Some (S_ "cn=admin")) fd line (S_ "cn=a,dc=x") (S_ "cn=b,ou=p,dc=x").
Definition rx_f : dn := [[mkAtv (S_ "cn") (S_ "a")]; [mkAtv (S_ "dc") (S_ "x")]].
Example C107_case : let w := rx_run (Some 3) (Ok (S_ "secret" ++ [10])) [MConnected (Ok []); MBound (Ok tt); MMoved (Ok tt)] in
  r_trace w = [RConnect rx_f; RBind (S_ "cn=admin") (S_ "secret"); RBound; RMove (S_ "cn=a,dc=x") (S_ "cn=b") (S_ "ou=p,dc=x"); RMoved; RStop] /\ rename_exit w = 0%Z.
Proof. vm_compute. split; reflexivity. Qed.
Example C107_unbound_case : let w := rx_run None (Ok []) [MConnected (Ok (S_ "typed")); MBound (Err (ELdap 49)); MMoved (Ok tt)] in
  r_trace w = [RConnect rx_f; RAsk (S_ "cn=admin"); RBind (S_ "cn=admin") (S_ "typed"); RFail (ELdap 49); RStop] /\ rename_exit w = 1%Z.
Proof. vm_compute. split; reflexivity. Qed.
Example C107_given_case : given (Some 3) (Ok (S_ "secret" ++ [10])) (Ok (Some (S_ "secret"))) /\ given (Some 3) (Ok (S_ "secret")) (Err EAssert) /\
  parse_dn rx_io (S_ "cn=a,dc=x") = Ok rx_f /\ exists r s, parse_dn rx_io (S_ "cn=b,ou=p,dc=x") = Ok (r :: s).
Proof.
  split; [constructor; lia|]. split; [exact (g_open 3 (S_ "secre") 116 ltac:(lia) ltac:(lia))|]. split; [vm_compute; reflexivity|].
  exists [mkAtv (S_ "cn") (S_ "b")], [[mkAtv (S_ "ou") (S_ "p")]; [mkAtv (S_ "dc") (S_ "x")]]. vm_compute. reflexivity.
Qed.

(** *** What does not hold *)
(** A password on the standard input, descriptor 0, is not used: it is asked for. *)
Theorem C107_stdin_refuted : exists line p typed l, line = Ok (p ++ [10]) /\ typed <> p /\
  In (RBind (S_ "cn=admin") typed) (r_trace (rx_run (Some 0) line l)) /\ forall l' d, ~ In (RBind d p) (r_trace (rx_run (Some 0) line (MConnected (Ok typed) :: l'))).
Proof.
  exists (Ok (S_ "secret" ++ [10])), (S_ "secret"), (S_ "typed"), [MConnected (Ok (S_ "typed"))]. split; [reflexivity|]. split; [vm_compute; discriminate|].
  split; [vm_compute; auto|]. intros l' d.
  assert (K : forall w i p, In (RBind d p) (r_trace (rename_step rx_io (Some (S_ "cn=admin")) (Some 0) (Ok (S_ "secret" ++ [10])) (S_ "cn=a,dc=x") (S_ "cn=b,ou=p,dc=x") w i)) ->
    r_state w <> RConnecting -> In (RBind d p) (r_trace w) /\ True).
  { intros w i p H N. split; [|exact Logic.I]. unfold rename_step in H. destruct (arguments _ _ _ _ _) as [[[pw f] t]|]; [|exact H].
    destruct (r_state w); [congruence| | |]; destruct i as [ty|x|[u|x]|[u|x]]; try exact H; unfold move_entry, rename_fail in H;
      try (destruct t); cbn [r_trace] in H; apply in_app_or in H; (destruct H as [H|H]; [exact H|]); cbn in H; repeat (destruct H as [H|H]; [discriminate|]); destruct H. }
  assert (Q : forall l w, r_state w <> RConnecting -> ~ In (RBind d (S_ "secret")) (r_trace w) ->
    ~ In (RBind d (S_ "secret")) (r_trace (fold_left (rename_step rx_io (Some (S_ "cn=admin")) (Some 0) (Ok (S_ "secret" ++ [10])) (S_ "cn=a,dc=x") (S_ "cn=b,ou=p,dc=x")) l w))).
  { induction l as [|i l IH]; intros w N I0; [exact I0|]. cbn [fold_left]. apply IH.
    - unfold rename_step. destruct (arguments _ _ _ _ _) as [[[pw f] t]|]; [|exact N]. destruct (r_state w) eqn:S0; [congruence| | |]; destruct i as [ty|x|[u|x]|[u|x]];
        unfold move_entry, rename_fail; try (destruct t); cbn [r_state]; congruence.
    - intro H. apply I0. exact (proj1 (K w i _ H N)). }
  unfold rx_run, rename_run. cbn [fold_left]. apply Q; vm_compute; [discriminate|]. intros [H|[H|[H|[]]]]; discriminate.
Qed.
Print Assumptions C107_stdin_refuted.
