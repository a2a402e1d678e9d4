(** C103: the tool that asks servers for their naming contexts prints what each says, and ends with the last of them. *)
From Verif Require Import Base BaseFacts Utf8Model ContextsModel ContextsSpec ContextsProofs.

(** What is seen of a server, in order, is what it does by itself, however many others there are and however
    their answers mix with its own. *)
Theorem C103_each : forall repr servers l k host es b, nth_error servers k = Some host ->
  way repr k host (at_server k l) es b -> nview k (c_trace (run repr servers l)) = es.
Proof. exact run_view. Qed.
Print Assumptions C103_each.
(** The reactor is stopped once, at the end, exactly when the Deferreds of all servers have fired. *)
Theorem C103_stop : forall repr servers l,
  (forall k host, nth_error servers k = Some host -> exists es b, way repr k host (at_server k l) es b) -> servers <> [] ->
  exists tr, (forall e, In e tr -> exists k, nabout e = Some k /\ (k < length servers)%nat) /\
    let fired := forall k host, nth_error servers k = Some host -> exists es, way repr k host (at_server k l) es true in
    ((fired /\ c_trace (run repr servers l) = tr ++ [NStop]) \/ (~ fired /\ c_trace (run repr servers l) = tr)).
Proof. exact run_stop. Qed.
Print Assumptions C103_stop.
(** The exit status is 1 just when a failure was printed. *)
Theorem C103_exit : forall repr servers l, exit_status (run repr servers l) = 1%Z <-> exists k y, In (NError k y) (c_trace (run repr servers l)).
Proof. exact run_exit. Qed.
Print Assumptions C103_exit.
(** Without servers nothing is done but to say how the tool is used. *)
Theorem C103_usage : forall repr l, c_trace (run repr [] l) = [NUsage] /\ exit_status (run repr [] l) = 0%Z.
Proof.
  intros repr l. assert (H : run repr [] l = start []); [|rewrite H; split; reflexivity]. unfold run. generalize (start []). clear.
  induction l as [|[k i] l IH]; intros w; [reflexivity|]. cbn [fold_left]. rewrite IH. unfold step. now destruct k.
Qed.
Print Assumptions C103_usage.

(** Octets are printed as Python writes them: here only in outline. *)
Definition nx_repr (b : bytes) : str := S_ "b'" ++ map (fun c => Z.of_N (Byte.to_N c)) b ++ S_ "'".
Definition nx_in : list (nat * nin) :=
  [(1%nat, JConnected); (0%nat, JConnected); (1%nat, JBound (Ok tt)); (0%nat, JBound (Ok tt)); (1%nat, JEntry (Ok [B "dc=x"; B "dc=y"])); (0%nat, JEnd (Err (ELdap 50))); (1%nat, JEnd (Ok tt))].
Example C103_case : let w := run nx_repr [S_ "a"; S_ "b"] nx_in in
  c_trace w = [NConnect 0 (S_ "a"); NConnect 1 (S_ "b"); NBind 1; NBind 0; NSearch 1; NSearch 0; NPrint 1 (S_ "b") (S_ "b'dc=x'"); NPrint 1 (S_ "b") (S_ "b'dc=y'"); NError 0 (ELdap 50); NEnd 1; NStop] /\ exit_status w = 1%Z.
Proof. vm_compute. split; reflexivity. Qed.
Example C103_ways : way nx_repr 0 (S_ "a") (at_server 0 nx_in) [NConnect 0 (S_ "a"); NBind 0; NSearch 0; NError 0 (ELdap 50)] true /\
  way nx_repr 1 (S_ "b") (at_server 1 nx_in) [NConnect 1 (S_ "b"); NBind 1; NSearch 1; NPrint 1 (S_ "b") (S_ "b'dc=x'"); NPrint 1 (S_ "b") (S_ "b'dc=y'"); NEnd 1] true.
Proof. split; [exact (y_broken nx_repr 0 (S_ "a") tt [] (ELdap 50))|exact (y_ended nx_repr 1 (S_ "b") tt [Ok [B "dc=x"; B "dc=y"]] tt)]. Qed.

(** *** What does not hold *)
(** One server that refuses the connection, or the bind, and the tool runs for ever, whatever happens next. *)
Theorem C103_stuck : forall repr servers l k host x, nth_error servers k = Some host ->
  at_server k l = [JRefused None] \/ at_server k l = [JConnected; JBound (Err x)] -> forall l', ~ In NStop (c_trace (run repr servers (l ++ l'))).
Proof. exact run_stuck. Qed.
Print Assumptions C103_stuck.
Theorem C103_stops_refuted : exists servers l, (forall k host, nth_error servers k = Some host -> at_server k l <> []) /\
  (forall l', ~ In NStop (c_trace (run nx_repr servers (l ++ l')))) /\ exit_status (run nx_repr servers l) = 0%Z.
Proof.
  exists [S_ "a"; S_ "b"], [(0%nat, JRefused None); (1%nat, JConnected); (1%nat, JBound (Ok tt)); (1%nat, JEnd (Ok tt))]. split; [|split; [|reflexivity]].
  - intros [|[|[|k]]] host H; try discriminate H; vm_compute; discriminate.
  - intro l'. apply (run_stuck nx_repr _ _ 0 (S_ "a") EValue); [reflexivity|]. left. reflexivity.
Qed.
Print Assumptions C103_stops_refuted.
