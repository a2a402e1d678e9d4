(** Proofs for FreeNumberModel. *)
From Verif Require Import Base Utf8Model UtilModel UtilProofs FreeNumberModel FreeNumberSpec.
From Coq Require Import Lia.

Lemma searches_app : forall a b, searches (a ++ b) = (searches a + searches b)%nat.
Proof. intros. unfold searches. now rewrite filter_app, app_length. Qed.
Lemma told_more : forall tr n c t, was_told tr n c -> was_told (tr ++ t) n c.
Proof. intros tr n c t (a & b & ->). exists a, (b ++ t). now rewrite <- app_assoc. Qed.

(** *** What the bounds are *)
Definition knows (w : guesser) : Prop :=
  match g_state w with
  | GConnecting => g_trace w = [GConnect]
  | GGuessing mn mx g => talk (g_trace w) /\ (exists a, g_trace w = a ++ [search_for g]) /\
      ((mn = 1000 /\ mx = None /\ g = 1000 /\ g_trace w = [GConnect; search_for 1000]) \/
       ((exists c, was_told (g_trace w) mn (S c)) /\ 1000 <= mn < g /\
        match mx with
        | None => g = mn + 500
        | Some m => was_told (g_trace w) m 0 /\ g < m /\ g = (m + mn) / 2
        end))
  | GOver => True
  end.
Lemma next_knows : forall w n mn mx g, g_state w = GGuessing mn mx g -> knows w -> knows (free_step w (KReply (Ok n))).
Proof.
  intros w n mn mx g S0 K. unfold knows in K. rewrite S0 in K. destruct K as (T & (a & A) & K). unfold free_step. rewrite S0.
  assert (TOLD : forall t, was_told (g_trace w ++ GReply (Ok n) :: t) g n) by (intro t; exists a, t; rewrite A, <- app_assoc; reflexivity).
  destruct (next_step n mn mx g) as [m|[[mn' mx'] g']] eqn:N; [exact Logic.I|]. unfold knows. cbn [g_state g_trace].
  split; [apply k_next; exact T|]. split; [exists (g_trace w ++ [GReply (Ok n)]); rewrite <- app_assoc; reflexivity|]. right.
  unfold next_step in N. destruct n as [|n].
  - destruct ((g =? mn) || (g =? mn + 1)) eqn:E; [discriminate|]. injection N as <- <- <-. apply Bool.orb_false_elim in E. destruct E as [E1 E2].
    apply Z.eqb_neq in E1, E2. destruct K as [(-> & -> & -> & _)|((c & C) & L & M)]; [congruence|].
    split; [exists c; now apply told_more|]. assert (mn < (g + mn) / 2 < g) by (split; [apply Z.lt_le_trans with (mn + 1); [lia|apply Z.div_le_lower_bound; lia]|apply Z.div_lt_upper_bound; lia]).
    split; [lia|]. split; [exact (TOLD _)|]. split; [lia|reflexivity].
  - destruct K as [(-> & -> & -> & _)|((c & C) & L & M)].
    + injection N as <- <- <-. split; [exists n; exact (TOLD _)|]. split; [lia|]. reflexivity.
    + destruct mx as [m|].
      * destruct ((m =? g) || (m =? g + 1)) eqn:E; [discriminate|]. injection N as <- <- <-. apply Bool.orb_false_elim in E. destruct E as [E1 E2].
        apply Z.eqb_neq in E1, E2. destruct M as (M & GM & _). split; [exists n; exact (TOLD _)|].
        assert (g < (m + g) / 2 < m) by (split; [apply Z.lt_le_trans with (g + 1); [lia|apply Z.div_le_lower_bound; lia]|apply Z.div_lt_upper_bound; lia]).
        split; [lia|]. split; [now apply told_more|]. split; [lia|reflexivity].
      * injection N as <- <- <-. split; [exists n; exact (TOLD _)|]. replace ((g + 1000 + g) / 2) with (g + 500) by (replace (g + 1000 + g) with ((g + 500) * 2) by lia; now rewrite Z.div_mul). split; [lia|reflexivity].
Qed.
Lemma step_knows : forall w i, knows w -> knows (free_step w i).
Proof.
  intros w i K. destruct (g_state w) as [|mn mx g|] eqn:S0; [| |unfold free_step; rewrite S0; destruct i as [[]|[]]; exact K].
  - destruct i as [[u|x]|r].
    + unfold free_step. rewrite S0. unfold knows in *. rewrite S0 in K. cbn [g_state g_trace]. rewrite K. split; [exact k_first|]. split; [exists [GConnect]; reflexivity|]. left. auto.
    + unfold free_step. rewrite S0. exact Logic.I.
    + unfold free_step. rewrite S0. destruct r; exact K.
  - destruct i as [r|[n|x]].
    + unfold free_step. rewrite S0. destruct r; exact K.
    + eapply next_knows; eauto.
    + unfold free_step. rewrite S0. exact Logic.I.
Qed.
Lemma run_knows : forall base l, knows (free_run base l).
Proof.
  intros base l. induction l as [|i l IH] using rev_ind; [destruct base; [reflexivity|exact Logic.I]|]. unfold free_run. rewrite fold_left_app. now apply step_knows.
Qed.

(** *** The shape of a run *)
Definition shaped (w : guesser) : Prop :=
  session (g_trace w) /\ (g_exit w = true <-> In GNoBase (g_trace w) \/ exists x, In (GFail x) (g_trace w)) /\
  (forall t, In (GPrint t) (g_trace w) -> exists n, t = dec n ++ [10] /\ was_told (g_trace w) n 0 /\ (n = 1000 \/ 1000 < n /\ exists c, was_told (g_trace w) (n - 1) (S c))).
Lemma talk_kinds : forall tr, talk tr -> forall e, In e tr -> e = GConnect \/ (exists n, e = search_for n) \/ exists c, e = GReply (Ok c).
Proof.
  induction 1 as [|tr c n T IH]; intros e H.
  - destruct H as [<-|[<-|[]]]; [auto|]. right. left. exists 1000. reflexivity.
  - apply in_app_or in H. destruct H as [H|[<-|[<-|[]]]]; [auto|eauto|]. right. left. now exists n.
Qed.
Lemma talk_calm : forall tr, talk tr -> ~ In GNoBase tr /\ (forall x, ~ In (GFail x) tr) /\ (forall t, ~ In (GPrint t) tr).
Proof.
  intros tr T. assert (K := talk_kinds tr T). split; [|split].
  - intro H. destruct (K _ H) as [D|[(n & D)|(c & D)]]; discriminate.
  - intros x H. destruct (K _ H) as [D|[(n & D)|(c & D)]]; discriminate.
  - intros t H. destruct (K _ H) as [D|[(n & D)|(c & D)]]; discriminate.
Qed.
Lemma next_print : forall w n mn mx g m, g_state w = GGuessing mn mx g -> knows w -> next_step n mn mx g = inl m ->
  forall t, was_told (g_trace w ++ GReply (Ok n) :: t) m 0 /\ (m = 1000 \/ 1000 < m /\ exists c, was_told (g_trace w ++ GReply (Ok n) :: t) (m - 1) (S c)).
Proof.
  intros w n mn mx g m S0 K N t. unfold knows in K. rewrite S0 in K. destruct K as (T & (a & A) & K).
  assert (TOLD : was_told (g_trace w ++ GReply (Ok n) :: t) g n) by (exists a, t; rewrite A, <- app_assoc; reflexivity).
  unfold next_step in N. destruct n as [|n].
  - destruct ((g =? mn) || (g =? mn + 1)) eqn:E; [|discriminate]. injection N as <-. split; [exact TOLD|].
    destruct K as [(-> & -> & -> & _)|((c & C) & L & M)]; [now left|]. right. split; [lia|]. apply Bool.orb_true_iff in E. destruct E as [E|E]; apply Z.eqb_eq in E; [lia|].
    exists c. apply told_more. replace (g - 1) with mn by lia. exact C.
  - destruct K as [(-> & -> & -> & _)|((c & C) & L & M)]; [discriminate|]. destruct mx as [m'|]; [|discriminate]. destruct M as (M & GM & _).
    destruct ((m' =? g) || (m' =? g + 1)) eqn:E; [|discriminate]. injection N as <-. split; [now apply told_more|]. right. split; [lia|].
    apply Bool.orb_true_iff in E. destruct E as [E|E]; apply Z.eqb_eq in E; [lia|]. exists n. replace (m' - 1) with g by lia. exact TOLD.
Qed.
Lemma step_shaped : forall w i, knows w -> (g_state w <> GOver -> g_exit w = false) -> shaped w ->
  shaped (free_step w i) /\ (g_state (free_step w i) <> GOver -> g_exit (free_step w i) = false).
Proof.
  intros w i K X (H & E & P). destruct (g_state w) as [|mn mx g|] eqn:S0.
  3:{ unfold free_step; rewrite S0. assert (Y : g_state w <> GOver -> g_exit w = false) by congruence. destruct i as [[]|[]]; (split; [split; [exact H|split; [exact E|exact P]]|exact Y]). }
  - specialize (X ltac:(discriminate)). pose proof K as K'. unfold knows in K. rewrite S0 in K. unfold free_step. rewrite S0. destruct i as [[u|x]|r].
    + rewrite K, X. split; [|reflexivity]. split; [apply n_talk; exact k_first|]. split; cbn.
      * split; [discriminate|]. intros [[D|[D|[]]]|(x & [D|[D|[]]])]; discriminate.
      * intros t [D|[D|[]]]; discriminate.
    + unfold free_fail. rewrite K. split; [|cbn; congruence]. split; [apply n_refused|]. split; cbn.
      * split; [intros _; right; exists x; auto|reflexivity].
      * intros t [D|[D|[D|[]]]]; discriminate.
    + assert (R : shaped w) by (split; [exact H|split; [exact E|exact P]]). destruct r; (split; [exact R|intros _; exact X]).
  - specialize (X ltac:(discriminate)). pose proof K as K'. unfold knows in K'. rewrite S0 in K'. destruct K' as (T & _). destruct (talk_calm _ T) as (C1 & C2 & C3).
    assert (R : shaped w) by (split; [exact H|split; [exact E|exact P]]). unfold free_step. rewrite S0. destruct i as [r|[n|x]].
    + destruct r; (split; [exact R|intros _; exact X]).
    + destruct (next_step n mn mx g) as [m|[[mn' mx'] g']] eqn:N.
      * split; [|cbn; congruence]. split; [apply n_done; exact T|]. cbn [g_exit g_trace]. split.
        { rewrite X. split; [discriminate|]. intros [D|(x & D)]; apply in_app_or in D; destruct D as [D|[D|[D|[D|[]]]]]; try discriminate; exfalso; [exact (C1 D)|exact (C2 x D)]. }
        { intros t D. apply in_app_or in D. destruct D as [D|[D|[D|[D|[]]]]]; try discriminate; [exfalso; exact (C3 t D)|]. injection D as <-. exists m. split; [reflexivity|].
          exact (next_print w n mn mx g m S0 K N _). }
      * split; [|intros _; exact X]. assert (T' : talk (g_trace w ++ [GReply (Ok n); search_for g'])) by (apply k_next; exact T). split; [apply n_talk; exact T'|].
        destruct (talk_calm _ T') as (D1 & D2 & D3). cbn [g_exit g_trace]. split.
        { rewrite X. split; [discriminate|]. intros [D|(x & D)]; exfalso; [exact (D1 D)|exact (D2 x D)]. }
        { intros t D. exfalso. exact (D3 t D). }
    + unfold free_fail. split; [|cbn; congruence]. split; [apply n_failed; exact T|]. cbn [g_exit g_trace]. split.
      * split; [intros _; right; exists x; apply in_or_app; right; cbn; auto|reflexivity].
      * intros t D. apply in_app_or in D. destruct D as [D|[D|[D|[D|[]]]]]; try discriminate. exfalso. exact (C3 t D).
Qed.
Lemma run_shaped : forall base l, shaped (free_run base l).
Proof.
  intros base l. enough (G : shaped (free_run base l) /\ (g_state (free_run base l) <> GOver -> g_exit (free_run base l) = false)) by apply G.
  induction l as [|i l [IH1 IH2]] using rev_ind.
  - unfold free_run. cbn [fold_left]. destruct base; cbn; (split; [|congruence]).
    + split; [apply n_waiting|]. cbn. split; [split; [discriminate|intros [[D|[]]|(x & [D|[]])]; discriminate]|intros t [D|[]]; discriminate].
    + split; [apply n_base|]. cbn. split; [split; auto|intros t [D|[]]; discriminate].
  - unfold free_run. rewrite fold_left_app. apply step_shaped; [apply run_knows|exact IH2|exact IH1].
Qed.

(** *** How long it takes, once a number is free *)
Definition narrow (w : guesser) : Prop :=
  match g_state w with GGuessing mn (Some m) _ => m - mn <= 500 | _ => True end /\
  forall a b, g_trace w = a ++ GReply (Ok 0%nat) :: b ->
  match g_state w with
  | GGuessing mn (Some m) _ => exists j, (searches b + j <= 10)%nat /\ m - mn <= 2 ^ Z.of_nat j
  | GGuessing _ None _ | GConnecting => False
  | GOver => (searches b <= 9)%nat
  end.
Lemma app_cut : forall (tr t a b : list gevent) z, tr ++ t = a ++ z :: b ->
  (exists b', tr = a ++ z :: b' /\ b = b' ++ t) \/ (exists a', a = tr ++ a' /\ t = a' ++ z :: b).
Proof.
  induction tr as [|e tr IH]; intros t a b z H; [right; exists a; auto|]. destruct a as [|e' a]; cbn in H; injection H as -> H.
  - left. exists tr. auto.
  - destruct (IH _ _ _ _ H) as [(b' & -> & ->)|(a' & -> & ->)]; [left; exists b'|right; exists a']; auto.
Qed.
Lemma halved : forall d j, 2 <= d -> d <= 2 ^ Z.of_nat j -> exists i, j = S i /\ (d + 1) / 2 <= 2 ^ Z.of_nat i.
Proof.
  intros d [|i] A B; [cbn in B; lia|]. exists i. split; [reflexivity|]. rewrite Nat2Z.inj_succ, Z.pow_succ_r in B by lia.
  assert ((d + 1) / 2 < 2 ^ Z.of_nat i + 1); [apply Z.div_lt_upper_bound; lia|lia].
Qed.
Lemma open_j : forall mn m j, 2 <= m - mn -> m - mn <= 2 ^ Z.of_nat j -> (1 <= j)%nat.
Proof. intros mn m [|j] A B; [cbn in B; lia|lia]. Qed.
Lemma over_narrow : forall w es x, (forall a b, es = a ++ GReply (Ok 0%nat) :: b -> (searches b <= 9)%nat) -> searches es = 0%nat -> knows w -> narrow w ->
  narrow (mkGuesser GOver x (g_trace w ++ es)).
Proof.
  intros w es x Q Z0 K (W & N). split; [exact Logic.I|]. cbn [g_state g_trace]. intros a b H. apply app_cut in H. destruct H as [(b' & T & ->)|(a' & -> & T)]; [|eauto].
  rewrite searches_app, Z0, Nat.add_0_r. specialize (N a b' T). unfold knows in K. destruct (g_state w) as [|mn [m|] g|]; [destruct N| |destruct N|exact N].
  destruct K as (_ & _ & [(_ & D & _)|(_ & L & (_ & M & _))]); [discriminate|]. destruct N as (j & J & B). assert (1 <= j)%nat by (eapply (open_j mn m); [lia|exact B]). lia.
Qed.
Lemma guess_narrow : forall w n mn mx g x, g_state w = GGuessing mn mx g -> knows w -> narrow w ->
  forall mn' mx' g', next_step n mn mx g = inr (mn', mx', g') -> narrow (mkGuesser (GGuessing mn' mx' g') x (g_trace w ++ [GReply (Ok n); search_for g'])).
Proof.
  intros w n mn mx g x S0 K (W & N) mn' mx' g' E. unfold knows in K. rewrite S0 in *. destruct K as (_ & _ & K). unfold next_step in E.
  assert (CUT : forall a b, g_trace w ++ [GReply (Ok n); search_for g'] = a ++ GReply (Ok 0%nat) :: b ->
    (exists b', g_trace w = a ++ GReply (Ok 0%nat) :: b' /\ searches b = S (searches b')) \/ (n = 0%nat /\ searches b = 1%nat)).
  { intros a b H. apply app_cut in H. destruct H as [(b' & T & ->)|(a' & -> & T)].
    - left. exists b'. split; [exact T|]. rewrite searches_app. cbn. lia.
    - right. destruct a' as [|e [|e' [|e'' a']]]; cbn in T; try discriminate. injection T as -> <-. auto. }
  destruct n as [|n].
  - destruct ((g =? mn) || (g =? mn + 1)) eqn:G; [discriminate|]. injection E as <- <- <-. destruct K as [(-> & -> & -> & _)|(_ & L & M)]; [discriminate|].
    destruct mx as [m|].
    + destruct M as (_ & GM & GE). split; [cbn; lia|]. cbn [g_state g_trace]. intros a b H. apply CUT in H. destruct H as [(b' & T & C)|[_ C]].
      * destruct (N a b' T) as (j & J & B). destruct (halved (m - mn) j) as (i & -> & D); [lia|exact B|]. exists i. split; [lia|].
        apply Z.le_trans with ((m - mn + 1) / 2); [|exact D]. apply Z.div_le_lower_bound; [lia|]. assert (2 * ((m + mn) / 2) <= m + mn) by (apply Z.mul_div_le; lia). lia.
      * exists 9%nat. split; [lia|]. change (2 ^ Z.of_nat 9) with 512. lia.
    + subst g. split; [cbn; lia|]. cbn [g_state g_trace]. intros a b H. apply CUT in H. destruct H as [(b' & T & C)|[_ C]]; [destruct (N a b' T)|].
      exists 9%nat. split; [lia|]. change (2 ^ Z.of_nat 9) with 512. lia.
  - destruct mx as [m|].
    + destruct ((m =? g) || (m =? g + 1)) eqn:G; [discriminate|]. injection E as <- <- <-. destruct K as [(_ & D & _)|(_ & L & (_ & GM & GE))]; [discriminate|].
      split; [cbn; lia|]. cbn [g_state g_trace]. intros a b H. apply CUT in H. destruct H as [(b' & T & C)|[D _]]; [|discriminate].
      destruct (N a b' T) as (j & J & B). destruct (halved (m - mn) j) as (i & -> & D); [lia|exact B|]. exists i. split; [lia|].
      apply Z.le_trans with ((m - mn + 1) / 2); [|exact D]. apply Z.div_le_lower_bound; [lia|].
      assert (m + mn = 2 * ((m + mn) / 2) + (m + mn) mod 2) by (apply Z.div_mod; lia). pose proof (Z.mod_pos_bound (m + mn) 2 ltac:(lia)). lia.
    + injection E as <- <- <-. split; [exact Logic.I|]. cbn [g_state g_trace]. intros a b H. apply CUT in H. destruct H as [(b' & T & C)|[D _]]; [exact (N a b' T)|discriminate].
Qed.
Lemma step_narrow : forall w i, knows w -> narrow w -> narrow (free_step w i).
Proof.
  intros w i K N. destruct (g_state w) as [|mn mx g|] eqn:S0; [| |unfold free_step; rewrite S0; destruct i as [[]|[]]; exact N].
  - pose proof K as K'. unfold knows in K'. rewrite S0 in K'. unfold free_step. rewrite S0. destruct i as [[u|x]|r]; [| |destruct r; exact N].
    + split; [exact Logic.I|]. cbn [g_state g_trace]. rewrite K'. intros [|e [|e' [|e'' a]]] b H; cbn in H; discriminate.
    + apply over_narrow; [|reflexivity|exact K|exact N]. intros [|e [|e' [|e'' a]]] b H; cbn in H; discriminate.
  - unfold free_step. rewrite S0. destruct i as [r|[n|x]]; [destruct r; exact N| |].
    + destruct (next_step n mn mx g) as [m|[[mn' mx'] g']] eqn:E.
      * apply over_narrow; [|reflexivity|exact K|exact N]. intros a b H.
        destruct a as [|e1 [|e2 [|e3 [|e4 a]]]]; cbn in H; try discriminate. injection H as _ <-. cbn. lia.
      * eapply guess_narrow; eauto.
    + apply over_narrow; [|reflexivity|exact K|exact N]. intros [|e1 [|e2 [|e3 [|e4 a]]]] b H; cbn in H; discriminate.
Qed.
Theorem run_narrow : forall base l a b, g_trace (free_run base l) = a ++ GReply (Ok 0%nat) :: b -> (searches b <= 9)%nat.
Proof.
  intros base l a b H. assert (N : narrow (free_run base l)).
  { clear. induction l as [|i l IH] using rev_ind.
    - unfold free_run. cbn [fold_left]. split; [destruct base; exact Logic.I|]. destruct base; cbn; intros [|e [|e' a]] b H; discriminate.
    - unfold free_run. rewrite fold_left_app. apply step_narrow; [apply run_knows|exact IH]. }
  destruct N as [_ N]. specialize (N a b H). pose proof (run_knows base l) as K. unfold knows in K. destruct (g_state (free_run base l)) as [|mn [m|] g|]; [destruct N| |destruct N|exact N].
  destruct K as (_ & _ & [(_ & D & _)|(_ & L & (_ & M & _))]); [discriminate|]. destruct N as (j & J & B). assert (1 <= j)%nat by (eapply (open_j mn m); [lia|exact B]). lia.
Qed.
(** While every number is found, the tool goes on by 500. *)
Theorem run_endless : forall u cs, exists mn, g_state (free_run true (KConnected (Ok u) :: map (fun c => KReply (Ok (S c))) cs)) = GGuessing mn None (1000 + 500 * Z.of_nat (length cs)).
Proof.
  intros u cs. induction cs as [|c cs (mn & IH)] using rev_ind; [exists 1000; reflexivity|].
  unfold free_run in *. rewrite map_app, app_comm_cons, fold_left_app. revert IH.
  generalize (fold_left free_step (KConnected (Ok u) :: map (fun c : nat => KReply (Ok (S c))) cs) (free_start true)). intros w IH.
  cbn [map fold_left]. unfold free_step. rewrite IH. unfold next_step. cbn [g_state]. exists (1000 + 500 * Z.of_nat (length cs)). f_equal. rewrite app_length, Nat2Z.inj_add. cbn [length].
  change (Z.of_nat 1) with 1. set (z := Z.of_nat (length cs)). replace (1000 + 500 * z + 1000 + (1000 + 500 * z)) with ((1000 + 500 * (z + 1)) * 2) by lia. now rewrite Z.div_mul.
Qed.
(** The questions of a trace with the replies that follow them *)
Fixpoint pairs (tr : list gevent) : list (str * nat) :=
  match tr with
  | [] => []
  | GSearch _ v _ :: r => match r with GReply (Ok c) :: _ => (v, c) :: pairs r | _ => pairs r end
  | _ :: r => pairs r
  end.
Lemma told_pairs : forall tr n c, was_told tr n c -> In (dec n, c) (pairs tr).
Proof.
  intros tr n c (a & b & ->). induction a as [|e a IH]; [cbn; auto|]. cbn [app]. destruct e; cbn [pairs]; try exact IH.
  destruct (a ++ GSearch (S_ "uidNumber") (dec n) 1 :: GReply (Ok c) :: b) as [|[| | |[]| | |] r]; try exact IH. now right.
Qed.
