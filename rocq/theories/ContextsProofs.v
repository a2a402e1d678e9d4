(** Proofs for ContextsModel: the servers do not disturb each other, and the run ends with the last of them. *)
From Verif Require Import Base Utf8Model ContextsModel ContextsSpec.
From Coq Require Import Lia.

Lemma nview_app : forall k a b, nview k (a ++ b) = nview k a ++ nview k b.
Proof. intros. unfold nview. apply filter_app. Qed.
Lemma nview_same : forall k es, (forall e, In e es -> nabout e = Some k) -> nview k es = es.
Proof.
  induction es as [|e r IH]; intro H; [reflexivity|]. unfold nview in *. cbn.
  rewrite (H e (or_introl eq_refl)), Nat.eqb_refl, IH; [reflexivity|]. intros e' He'. apply H. now right.
Qed.
Lemma nview_other : forall k es, (forall e, In e es -> nabout e <> Some k) -> nview k es = [].
Proof.
  induction es as [|e r IH]; intro H; [reflexivity|]. unfold nview in *. cbn.
  assert (E : match nabout e with Some j => Nat.eqb j k | None => false end = false).
  { destruct (nabout e) as [j|] eqn:A; [|reflexivity]. apply Nat.eqb_neq. intros ->. exact (H e (or_introl eq_refl) A). }
  rewrite E. apply IH. intros e' He'. apply H. now right.
Qed.
Lemma in_nview : forall k e tr, In e (nview k tr) <-> In e tr /\ nabout e = Some k.
Proof.
  intros k e tr. unfold nview. rewrite filter_In. split; intros [A B]; split; auto.
  - destruct (nabout e) as [j|]; [|discriminate]. apply Nat.eqb_eq in B. now subst.
  - rewrite B. apply Nat.eqb_refl.
Qed.
Lemma set_state_same : forall l k s t, nth_error l k = Some t -> nth_error (set_state k s l) k = Some s.
Proof. induction l as [|a l IH]; intros [|k] s t H; cbn in *; try discriminate; eauto. Qed.
Lemma set_state_other : forall l k k' s, k <> k' -> nth_error (set_state k s l) k' = nth_error l k'.
Proof. induction l as [|a l IH]; intros [|k] [|k'] s H; cbn; auto; try congruence. Qed.
Lemma set_state_length : forall l k s, length (set_state k s l) = length l.
Proof. induction l as [|a l IH]; intros [|k] s; cbn; auto. Qed.
Lemma at_server_snoc : forall k l j i, at_server k (l ++ [(j, i)]) = at_server k l ++ (if Nat.eqb j k then [i] else []).
Proof. intros. unfold at_server. rewrite filter_app, map_app. cbn. now destruct (Nat.eqb j k). Qed.
Lemma connects_about : forall l k e, In e (connects k l) -> exists j host, e = NConnect j host /\ (k <= j)%nat.
Proof.
  induction l as [|h l IH]; intros k e H; [destruct H|]. destruct H as [<-|H]; [eauto|].
  destruct (IH _ _ H) as (j & host & E & L). exists j, host. split; [exact E|lia].
Qed.
Lemma connects_view : forall l k j host, nth_error l j = Some host -> nview (k + j) (connects k l) = [NConnect (k + j) host].
Proof.
  induction l as [|h l IH]; intros k [|j] host H; try discriminate; cbn in H.
  - injection H as ->. rewrite Nat.add_0_r. cbn [connects]. change (NConnect k host :: connects (S k) l) with ([NConnect k host] ++ connects (S k) l).
    rewrite nview_app, (nview_same k [NConnect k host]), (nview_other k (connects (S k) l)); [reflexivity| |].
    + intros e He. apply connects_about in He. destruct He as (j & host' & -> & L). intro E. injection E. lia.
    + intros e [<-|[]]. reflexivity.
  - cbn [connects]. change (NConnect k h :: connects (S k) l) with ([NConnect k h] ++ connects (S k) l).
    rewrite nview_app, (nview_other _ [NConnect k h]).
    + replace (k + S j)%nat with (S k + j)%nat by lia. apply IH. exact H.
    + intros e [<-|[]]. intro E. injection E. lia.
Qed.

Section Proofs.
  Variable repr : bytes -> str.
  Variable servers : list str.
  Notation one := (one repr).
  Notation run := (run repr servers).
  Notation step := (step repr servers).

  (** One server by itself *)
  Definition solo_step (k : nat) (host : str) (p : nstate * list nevent) (i : nin) : nstate * list nevent :=
    let '(s', es, _) := one k host (fst p) i in (s', snd p ++ es).
  Definition solo (k : nat) (host : str) (l : list nin) : nstate * list nevent := fold_left (solo_step k host) l (NConnecting, [NConnect k host]).
  Lemma solo_snoc : forall k host l i, solo k host (l ++ [i]) = solo_step k host (solo k host l) i.
  Proof. intros. unfold solo. now rewrite fold_left_app. Qed.
  Lemma one_about : forall k host s i s' es x e, one k host s i = (s', es, x) -> In e es -> nabout e = Some k.
  Proof.
    intros k host s i s' es x e H He.
    destruct s, i as [|[c|]|[u|c]|[l|c]|[u|c]]; cbn in H; injection H as <- <- <-; cbn in He;
      try (destruct He as [<-|[]]; reflexivity); try destruct He.
    apply in_map_iff in He. destruct He as (c & <- & _). reflexivity.
  Qed.
  Lemma one_flag : forall k host s i s' es x, one k host s i = (s', es, x) -> (x = true <-> exists y, In (NError k y) es).
  Proof.
    intros k host s i s' es x H.
    destruct s, i as [|[c|]|[u|c]|[l|c]|[u|c]]; cbn in H; injection H as <- <- <-; cbn;
      (split; [intro D; try discriminate D; eauto|intros (y & D)]);
      try (destruct D as [D|D]; [try discriminate D; reflexivity|]); try destruct D; try reflexivity.
    apply in_map_iff in D. destruct D as (z & D & _). discriminate.
  Qed.
  Lemma one_done : forall k host i s' es x, one k host NDone i = (s', es, x) -> s' = NDone /\ es = [].
  Proof. intros k host i s' es x H. cbn in H. destruct i; injection H as <- <- <-; auto. Qed.

  (** The invariant *)
  Definition fine (l : list (nat * nin)) (w : contexts) : Prop :=
    length (c_states w) = length servers /\
    (forall k host, nth_error servers k = Some host -> exists s, nth_error (c_states w) k = Some s /\ solo k host (at_server k l) = (s, nview k (c_trace w))) /\
    (c_exit w = true <-> exists k y, In (NError k y) (c_trace w)) /\
    (exists tr, (forall e, In e tr -> (exists k, nabout e = Some k /\ (k < length servers)%nat) \/ (servers = [] /\ e = NUsage)) /\
       c_trace w = tr ++ (if negb (Nat.eqb (length servers) 0) && forallb ndone (c_states w) then [NStop] else [])).

  Lemma start_fine : fine [] (start servers).
  Proof.
    unfold fine, start. destruct servers as [|h r] eqn:E.
    - cbn. split; [reflexivity|]. split; [|split].
      + intros k host H. destruct k; discriminate.
      + split; [discriminate|]. intros (k & y & [D|[]]). discriminate.
      + exists [NUsage]. split; [|reflexivity]. intros e [<-|[]]. auto.
    - rewrite <- E. cbn [c_states c_exit c_trace]. rewrite map_length. split; [reflexivity|]. split; [|split].
      + intros k host H. exists NConnecting. split; [rewrite nth_error_map, H; reflexivity|]. unfold solo. cbn.
        f_equal. symmetry. exact (connects_view servers 0 k host H).
      + split; [discriminate|]. intros (k & y & D). apply connects_about in D. destruct D as (j & host & D & _). discriminate.
      + exists (connects 0 servers). split.
        * assert (X : forall l k e, In e (connects k l) -> exists j, nabout e = Some j /\ (j < k + length l)%nat).
          { induction l as [|h' l IH]; intros k e H; [destruct H|]. destruct H as [<-|H]; [exists k; cbn; split; [reflexivity|lia]|].
            destruct (IH _ _ H) as (j & A & B). exists j. split; [exact A|cbn; lia]. }
          intros e H. left. destruct (X _ _ _ H) as (j & A & B). eauto.
        * rewrite E. cbn. now rewrite app_nil_r.
  Qed.
  Lemma set_done : forall l k s t, nth_error l k = Some t -> forallb ndone (set_state k s l) = true -> ndone t = true -> forallb ndone l = true.
  Proof.
    induction l as [|a l IH]; intros [|k] s t H A D; try discriminate; cbn in *.
    - injection H as ->. rewrite D. apply andb_prop in A. cbn. apply A.
    - apply andb_prop in A. destruct A as [A B]. rewrite A. cbn. eapply IH; eauto.
  Qed.
  Lemma step_fine : forall l w k i, fine l w -> fine (l ++ [(k, i)]) (step w (k, i)).
  Proof.
    intros l w k i (L & S0 & X & tr & T & E). unfold ContextsModel.step.
    destruct (nth_error servers k) as [host|] eqn:K.
    2:{ split; [exact L|]. split; [|split; [exact X|exists tr; auto]]. intros j h J. rewrite at_server_snoc.
        destruct (Nat.eqb_spec k j) as [->|N]; [congruence|]. rewrite app_nil_r. auto. }
    destruct (S0 k host K) as (s & KS & SO). rewrite KS. destruct (one k host s i) as [[s' es] x] eqn:O.
    assert (KL : (k < length servers)%nat) by (apply nth_error_Some; congruence).
    assert (NE : negb (Nat.eqb (length servers) 0) = true) by (destruct (length servers); [lia|reflexivity]).
    set (stop := if negb (ndone s) && forallb ndone (set_state k s' (c_states w)) then [NStop] else []).
    assert (ST : forall e, In e stop -> e = NStop) by (unfold stop; generalize (negb (ndone s) && forallb ndone (set_state k s' (c_states w))); intros [|] e He; [destruct He as [<-|[]]; reflexivity|destruct He]).
    assert (VS : forall j, nview j stop = []) by (intro j; apply nview_other; intros e He; rewrite (ST e He); discriminate).
    unfold fine. cbn [c_states c_exit c_trace]. rewrite set_state_length. split; [exact L|]. split; [|split].
    - intros j h J. rewrite at_server_snoc, !nview_app, VS, app_nil_r. destruct (Nat.eqb_spec k j) as [<-|N].
      + assert (h = host) by congruence. subst h. exists s'. split; [eapply set_state_same; eauto|]. rewrite solo_snoc, SO. unfold solo_step. cbn.
        rewrite O. f_equal. f_equal. symmetry. apply nview_same. intros e He. eapply one_about; eauto.
      + rewrite app_nil_r, set_state_other by assumption. rewrite (nview_other j es); [rewrite app_nil_r; auto|].
        intros e He A. rewrite (one_about _ _ _ _ _ _ _ _ O He) in A. congruence.
    - rewrite Bool.orb_true_iff, X, (one_flag _ _ _ _ _ _ _ O). split.
      + intros [(j & y & A)|(y & A)]; [exists j, y|exists k, y]; apply in_or_app; auto. right. apply in_or_app; auto.
      + intros (j & y & A). apply in_app_or in A. destruct A as [A|A]; [left; eauto|]. apply in_app_or in A. destruct A as [A|A].
        * right. assert (B := one_about _ _ _ _ _ _ _ _ O A). cbn in B. injection B as ->. eauto.
        * apply ST in A. discriminate.
    - rewrite NE in *. cbn [andb] in *. destruct (ndone s) eqn:D.
      + assert (s = NDone) by (destruct s; try discriminate; reflexivity). subst s. apply one_done in O. destruct O as [-> ->].
        assert (Q : set_state k NDone (c_states w) = c_states w).
        { clear - KS. revert k KS. induction (c_states w) as [|a r IH]; intros [|k] H; try discriminate; cbn in *; [congruence|]. now rewrite IH. }
        exists tr. split; [exact T|]. unfold stop. cbn. rewrite Q, app_nil_r. exact E.
      + assert (U : forallb ndone (c_states w) = false).
        { destruct (forallb ndone (c_states w)) eqn:F; [|reflexivity]. rewrite forallb_forall in F. rewrite (F s (nth_error_In _ _ KS)) in D. discriminate. }
        rewrite U, app_nil_r in E. exists (tr ++ es). split.
        * intros e He. apply in_app_or in He. destruct He as [He|He]; [auto|]. left. exists k. split; [eapply one_about; eauto|exact KL].
        * unfold stop. cbn [negb andb]. rewrite E, <- app_assoc. reflexivity.
  Qed.
  Lemma run_fine : forall l, fine l (run l).
  Proof.
    intro l. induction l as [|[k i] l IH] using rev_ind; [exact start_fine|]. unfold ContextsModel.run. rewrite fold_left_app. cbn [fold_left].
    now apply step_fine.
  Qed.

  (** *** One server, exactly *)
  Lemma fold_entries : forall k host rs p, fst p = NSearching -> fold_left (solo_step k host) (map JEntry rs) p = (NSearching, snd p ++ flat_map (lines repr k host) rs).
  Proof.
    induction rs as [|r rs IH]; intros [s es] H; cbn in H; subst s; cbn; [now rewrite app_nil_r|]. rewrite IH.
    - unfold solo_step. destruct r; cbn; now rewrite <- app_assoc.
    - unfold solo_step. destruct r; reflexivity.
  Qed.
  Lemma solo_way : forall k host l es b, way repr k host l es b -> snd (solo k host l) = es /\ ndone (fst (solo k host l)) = b.
  Proof.
    intros k host l es b H. destruct H; try (split; reflexivity).
    - unfold solo. cbn [fold_left]. rewrite fold_entries by reflexivity. split; reflexivity.
    - unfold solo. cbn [fold_left]. rewrite fold_left_app, fold_entries by reflexivity. split; cbn; rewrite <- ?app_assoc; reflexivity.
    - unfold solo. cbn [fold_left]. rewrite fold_left_app, fold_entries by reflexivity. split; cbn; rewrite <- ?app_assoc; reflexivity.
  Qed.
  Theorem run_view : forall l k host es b, nth_error servers k = Some host -> way repr k host (at_server k l) es b -> nview k (c_trace (run l)) = es.
  Proof.
    intros l k host es b K W. destruct (run_fine l) as (_ & S0 & _). destruct (S0 k host K) as (s & _ & E). apply solo_way in W. rewrite E in W. apply W.
  Qed.
  (** *** The end *)
  Definition all_fired (l : list (nat * nin)) : Prop := forall k host, nth_error servers k = Some host -> exists es, way repr k host (at_server k l) es true.
  Theorem run_stop : forall l, (forall k host, nth_error servers k = Some host -> exists es b, way repr k host (at_server k l) es b) -> servers <> [] ->
    exists tr, (forall e, In e tr -> exists k, nabout e = Some k /\ (k < length servers)%nat) /\
      ((all_fired l /\ c_trace (run l) = tr ++ [NStop]) \/ (~ all_fired l /\ c_trace (run l) = tr)).
  Proof.
    intros l W NE. destruct (run_fine l) as (L & S0 & _ & tr & T & E). exists tr. split.
    - intros e He. destruct (T e He) as [A|[A _]]; [exact A|congruence].
    - assert (N : negb (Nat.eqb (length servers) 0) = true) by (destruct servers; [congruence|reflexivity]). rewrite N in E. cbn [andb] in E.
      destruct (forallb ndone (c_states (run l))) eqn:F.
      + left. split; [|exact E]. intros k host K. destruct (W k host K) as (es & b & Y). destruct (S0 k host K) as (s & KS & SO).
        pose proof (solo_way _ _ _ _ _ Y) as [_ D]. rewrite SO in D. cbn in D. rewrite forallb_forall in F. rewrite (F s (nth_error_In _ _ KS)) in D. subst b. eauto.
      + right. rewrite app_nil_r in E. split; [|exact E]. intro A. assert (G : forallb ndone (c_states (run l)) = true); [|congruence].
        apply forallb_forall. intros s Hs. apply In_nth_error in Hs. destruct Hs as (k & KS).
        assert (KL : (k < length servers)%nat) by (rewrite <- L; apply nth_error_Some; congruence). apply nth_error_Some in KL.
        destruct (nth_error servers k) as [host|] eqn:K; [|congruence]. destruct (A k host K) as (es & Y). destruct (S0 k host K) as (s' & KS' & SO).
        pose proof (solo_way _ _ _ _ _ Y) as [_ D]. rewrite SO in D. cbn in D. congruence.
  Qed.
  Theorem run_exit : forall l, exit_status (run l) = 1%Z <-> exists k y, In (NError k y) (c_trace (run l)).
  Proof.
    intro l. destruct (run_fine l) as (_ & _ & X & _). rewrite <- X. unfold exit_status. destruct (c_exit (run l)); split; auto; discriminate.
  Qed.
  (** A server that is stuck stays so, and the run does not end. *)
  Lemma solo_stuck : forall k host l', forall p, fst p = NStuck -> fst (fold_left (solo_step k host) l' p) = NStuck.
  Proof. induction l' as [|i l' IH]; intros [s es] H; cbn in *; [exact H|]. subst s. apply IH. unfold solo_step. cbn. now destruct i. Qed.
  Theorem run_stuck : forall l k host x, nth_error servers k = Some host ->
    at_server k l = [JRefused None] \/ at_server k l = [JConnected; JBound (Err x)] -> forall l', ~ In NStop (c_trace (run (l ++ l'))).
  Proof.
    intros l k host x K C l' H. destruct (run_fine (l ++ l')) as (L & S0 & _ & tr & T & E). rewrite E in H. apply in_app_or in H. destruct H as [H|H].
    - destruct (T _ H) as [(j & A & _)|[_ A]]; discriminate.
    - destruct (forallb ndone (c_states (run (l ++ l')))) eqn:F; [|rewrite Bool.andb_false_r in H; destruct H].
      destruct (S0 k host K) as (s & KS & SO). rewrite forallb_forall in F. pose proof (F s (nth_error_In _ _ KS)) as D.
      assert (Q : at_server k (l ++ l') = at_server k l ++ at_server k l') by (unfold at_server; now rewrite filter_app, map_app).
      rewrite Q in SO. unfold solo in SO. rewrite fold_left_app in SO.
      assert (Z : fst (fold_left (solo_step k host) (at_server k l) (NConnecting, [NConnect k host])) = NStuck) by (destruct C as [-> | ->]; reflexivity).
      apply (solo_stuck k host (at_server k l')) in Z. rewrite SO in Z. cbn in Z. subst s. discriminate.
  Qed.
End Proofs.
