(** Proofs for RenameModel. *)
From Verif Require Import Base Utf8Model DnModel RenameModel RenameSpec.
From Coq Require Import Lia.

Lemma read_given : forall fd line, given fd line (read_password fd line).
Proof.
  intros [n|] line; [|constructor]. cbn. destruct (Z.eqb_spec n 0) as [->|N]; [constructor|]. destruct line as [t|x]; [|now constructor]. cbn [bind].
  destruct (rev t) as [|c r] eqn:E.
  - assert (t = []) by (rewrite <- (rev_involutive t), E; reflexivity). subst t. now constructor.
  - assert (T : t = rev r ++ [c]) by (rewrite <- (rev_involutive t), E; reflexivity). subst t. destruct (Z.eqb_spec c 10) as [->|C]; now constructor.
Qed.
Lemma given_unique : forall fd line r r', given fd line r -> given fd line r' -> r = r'.
Proof.
  intros fd line r r' A B. destruct A; inversion B; subst; try congruence; try reflexivity;
    repeat match goal with
    | H : _ ++ [_] = _ ++ [_] |- _ => apply app_inj_tail in H; destruct H; subst
    | H : _ ++ [_] = [] |- _ => destruct (app_cons_not_nil _ _ _ (eq_sym H))
    | H : [] = _ ++ [_] |- _ => destruct (app_cons_not_nil _ _ _ H)
    end; congruence.
Qed.
Theorem read_iff : forall fd line r, read_password fd line = r <-> given fd line r.
Proof. intros fd line r. split; [intros <-; apply read_given|]. intro H. eapply given_unique; [apply read_given|exact H]. Qed.

Section Proofs.
  Variable io : Z -> Z -> res Z.
  Variable binddn : option str.
  Variable fd : option Z.
  Variable line : res str.
  Variable from to : str.
  Notation args := (arguments io fd line from to).
  Notation run := (rename_run io binddn fd line from to).
  Notation step := (rename_step io binddn fd line from to).

  Section Good.
    Variable pw : option str.
    Variable f t : dn.
    Hypothesis A : args = Ok (pw, f, t).
    (** Where a run is *)
    Inductive at_point : renamer -> Prop :=
    | p_connecting : at_point (mkRenamer RConnecting false [RConnect f])
    | p_binding : forall es d p, login binddn pw es d p -> at_point (mkRenamer RBinding false (RConnect f :: es ++ [RBind d p]))
    | p_moving : forall es d p r s, login binddn pw es d p -> t = r :: s ->
        at_point (mkRenamer RMoving false (RConnect f :: es ++ [RBind d p; RBound; RMove (dn_text f) (rdn_text r) (dn_text s)]))
    | p_over : forall (x : bool) tr, course binddn pw f t tr (if x then 1 else 0) -> at_point (mkRenamer ROver x tr).
    Lemma step_point : forall w i, at_point w -> at_point (step w i).
    Proof.
      intros w i P. unfold rename_step. rewrite A. destruct P as [|es d p L|es d p r s L T|x tr C].
      - cbn [r_state]. destruct i as [typed|x|r|r]; try exact p_connecting; [|apply p_over; apply s_refused].
        unfold bind_as, rename_fail. destruct binddn as [[|c b]|] eqn:B; cbn [r_trace r_exit].
        + apply (p_binding [] [] []). constructor. auto.
        + destruct pw as [p|] eqn:Q.
          * apply (p_binding [] (c :: b) p). apply i_known; congruence.
          * destruct typed as [p|x]; [apply (p_binding [RAsk (c :: b)] (c :: b) p); apply i_typed; congruence|].
            apply p_over. apply (s_untyped _ _ f t (c :: b) x); congruence.
        + apply (p_binding [] [] []). constructor. auto.
      - cbn [r_state]. destruct i as [typed|x|[u|x]|r]; try (apply p_binding; exact L).
        + unfold move_entry, rename_fail. destruct t as [|r s] eqn:T; cbn [r_trace r_exit]; cbn [app]; rewrite <- app_assoc; cbn [app].
          * apply p_over. now apply s_no_name.
          * rewrite <- T in *. now apply p_moving.
        + unfold rename_fail. cbn [r_trace]. cbn [app]. rewrite <- app_assoc. cbn [app]. apply p_over. now apply s_unbound.
      - cbn [r_state]. destruct i as [typed|x|r'|[u|x]]; try (now apply p_moving).
        + cbn [r_trace r_exit]. cbn [app]. rewrite <- app_assoc. cbn [app]. apply p_over. now apply s_moved.
        + unfold rename_fail. cbn [r_trace]. cbn [app]. rewrite <- app_assoc. cbn [app]. apply p_over. now apply s_failed.
      - cbn [r_state]. destruct i; now apply p_over.
    Qed.
    Lemma run_point : forall l, at_point (run l).
    Proof.
      intro l. induction l as [|i l IH] using rev_ind.
      - unfold rename_run, rename_start. cbn [fold_left]. rewrite A. constructor.
      - unfold rename_run. rewrite fold_left_app. now apply step_point.
    Qed.
    Theorem run_course : forall l, course binddn pw f t (r_trace (run l)) (rename_exit (run l)).
    Proof.
      intro l. destruct (run_point l) as [|es d p L|es d p r s L T|x tr C]; cbn [r_trace rename_exit r_exit].
      - apply s_waiting.
      - now apply s_binding.
      - now apply s_moving.
      - exact C.
    Qed.
    (** If all goes well, with a name to bind to and what was typed or read *)
    Theorem run_moved : forall typed u v l r s b, t = r :: s -> binddn = Some b -> b <> [] ->
      let w := run (MConnected (Ok typed) :: MBound (Ok u) :: MMoved (Ok v) :: l) in
      r_trace w = RConnect f :: (match pw with Some p => [RBind b p] | None => [RAsk b; RBind b typed] end) ++
        [RBound; RMove (dn_text f) (rdn_text r) (dn_text s); RMoved; RStop] /\ rename_exit w = 0%Z.
    Proof.
      intros typed u v l r s b T B N. cbv zeta. destruct b as [|c b]; [congruence|].
      assert (E : run [MConnected (Ok typed); MBound (Ok u); MMoved (Ok v)] = mkRenamer ROver false (RConnect f :: (match pw with Some p => [RBind (c :: b) p] | None => [RAsk (c :: b); RBind (c :: b) typed] end) ++
        [RBound; RMove (dn_text f) (rdn_text r) (dn_text s); RMoved; RStop])).
      { unfold rename_run, rename_start, rename_step. rewrite A. cbn [fold_left r_state]. unfold bind_as. rewrite B. unfold move_entry. rewrite T. destruct pw; reflexivity. }
      assert (O : forall l w, r_state w = ROver -> fold_left step l w = w).
      { clear - A. induction l as [|i l IH]; intros w H; [reflexivity|]. cbn [fold_left]. assert (Q : step w i = w) by (unfold rename_step; rewrite A, H; destruct i; reflexivity). rewrite Q. now apply IH. }
      change (MConnected (Ok typed) :: MBound (Ok u) :: MMoved (Ok v) :: l) with ([MConnected (Ok typed); MBound (Ok u); MMoved (Ok v)] ++ l).
      unfold rename_run in *. rewrite fold_left_app, E, O by reflexivity. split; reflexivity.
    Qed.
  End Good.
  Theorem run_raised : forall x, args = Err x -> forall l, r_trace (run l) = [RRaised x] /\ rename_exit (run l) = 1%Z.
  Proof.
    intros x A l. assert (E : run l = mkRenamer ROver true [RRaised x]); [|rewrite E; split; reflexivity].
    induction l as [|i l IH] using rev_ind; [unfold rename_run, rename_start; cbn [fold_left]; now rewrite A|].
    unfold rename_run in *. rewrite fold_left_app, IH. cbn [fold_left]. unfold rename_step. now rewrite A.
  Qed.
End Proofs.
