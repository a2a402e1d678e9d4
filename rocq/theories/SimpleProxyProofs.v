(** The simple proxy: proofs. *)
From Verif Require Import Base BaseFacts BerModel LdapModel ServerModel ClientModel ProxyModel ProxySpec ProxyProofs ProxyOrder SimpleProxyModel SimpleProxySpec.

Lemma upd_same c x f : upd c x f c = x. Proof. unfold upd. now rewrite Nat.eqb_refl. Qed.
Lemma upd_other c x f d : d <> c -> upd c x f d = f d. Proof. intros N. unfold upd. now apply Nat.eqb_neq in N as ->. Qed.
Lemma asked_app c t t' : asked c (t ++ t') = asked c t ++ asked c t'. Proof. apply flat_map_app. Qed.
Lemma passed_app c t t' : passed c (t ++ t') = passed c t ++ passed c t'. Proof. apply flat_map_app. Qed.
Lemma pending_app c t t' : pending c (t ++ t') = pending c t ++ pending c t'. Proof. apply flat_map_app. Qed.
Lemma answered_app c b t t' : answered c b (t ++ t') = answered c b t ++ answered c b t'. Proof. apply flat_map_app. Qed.
Lemma told_app c b t t' : told c b (t ++ t') = told c b t ++ told c b t'. Proof. apply flat_map_app. Qed.

(** *** What the list of things registered and passed on looks like *)
Record wired (s : sst) : Prop := {
  w_wire : forall c b id, In (b, id) (l_wire (sc_link (s_conns s c))) -> b < s_next s;
  w_nodup : forall c, NoDup (map fst (l_wire (sc_link (s_conns s c))));
  w_once : forall c c' b id op id', In (b, id) (l_wire (sc_link (s_conns s c))) -> In (SForward c' b op id') (s_trace s) -> c' = c /\ id' = id;
  w_src : forall c b id, In (b, id) (l_wire (sc_link (s_conns s c))) -> exists op, In (SGot c id op) (s_trace s);
  w_fwd : forall c b op id, In (SForward c b op id) (s_trace s) -> b < s_next s;
  w_got : forall c id op, In (c, (id, op)) (s_waiting s) -> In (SGot c id op) (s_trace s);
  w_arr : forall c b v, In (SArrived c b v) (s_trace s) -> b < s_next s;
  w_rep : forall c id v b, In (SReply c id v b) (s_trace s) -> b < s_next s /\ In (SArrived c b v) (s_trace s) /\ exists op, In (SGot c id op) (s_trace s);
  w_same : forall c c' b op id, In (SForward c b op id) (s_trace s) -> (forall v, In (SArrived c' b v) (s_trace s) -> c' = c);
  w_uniq : forall c c' b op op' id id', In (SForward c b op id) (s_trace s) -> In (SForward c' b op' id') (s_trace s) -> c' = c /\ op' = op /\ id' = id }.

Inductive cq_ev (c : nat) (id : pv) (op : obj) (s : sst) : sev -> Z -> list (Z * pv) -> Prop :=
| CQ_raise e n w : s_next s <= n -> (w = [] \/ w = [(s_next s, id)] /\ s_next s < n) -> cq_ev c id op s (SRaised c e) n w
| CQ_ok w : w = [] \/ w = [(s_next s, id)] -> cq_ev c id op s (SForward c (s_next s) op id) (s_next s + 1) w.

Lemma client_queue_spec c id op s : let s' := client_queue c id op s in
  exists e w n, cq_ev c id op s e n w /\ s_next s' = n /\ s_waiting s' = s_waiting s /\ s_trace s' = s_trace s ++ [e] /\
    (forall d, d <> c -> s_conns s' d = s_conns s d) /\
    s_conns s' c = set_link (mkLink (l_up (sc_link (s_conns s c))) (l_wire (sc_link (s_conns s c)) ++ w)) (s_conns s c) /\
    (forall N, sc_client (s_conns s c) = true -> l_up (sc_link (s_conns s c)) = true -> wired s -> 0 <= s_next s -> n <= N -> encodable N op ->
       e = SForward c (s_next s) op id).
Proof.
  cbn zeta. unfold client_queue.
  assert (SL : forall x, set_link (mkLink (l_up (sc_link x)) (l_wire (sc_link x) ++ [])) x = x) by (intros [? ? ? ? [] ?]; unfold set_link; cbn; now rewrite app_nil_r).
  assert (NW : wired s -> wire_has (s_next s) (l_wire (sc_link (s_conns s c))) = false).
  { intros W. unfold wire_has. apply not_true_iff_false. intros X. apply existsb_exists in X as ((b & i) & I & E). apply Z.eqb_eq in E. cbn in E. pose proof (w_wire s W c b i I). lia. }
  assert (EN : forall N, 0 <= s_next s -> s_next s + 1 <= N -> encodable N op -> exists w, toWire (OMessage (class_tag KSeq) (VInt (s_next s)) op None) = Ok w).
  { intros N L0 L1 EN. apply EN. lia. }
  destruct (sc_client (s_conns s c)) eqn:C.
  2:{ exists (SRaised c EAttr), [], (s_next s). split; [constructor; [lia|now left]|]. split; [reflexivity|]. split; [reflexivity|]. split; [reflexivity|].
      split; [reflexivity|]. split; [now rewrite SL|]. intros N X. discriminate X. }
  destruct (needs_answer op) eqn:NA.
  - unfold send_multi. rewrite NA. destruct (l_up (sc_link (s_conns s c))) eqn:U.
    + destruct (wire_has (s_next s) _) eqn:H.
      * exists (SRaised c EAssert), [], (s_next s + 1). split; [constructor; [lia|now left]|]. split; [reflexivity|]. split; [reflexivity|]. split; [reflexivity|].
        split; [intros d ND; cbn; now apply upd_other|]. split; [cbn; rewrite upd_same; rewrite <- U at 1; rewrite SL; destruct (s_conns s c) as [? ? ? ? [] ?]; reflexivity|]. intros N _ _ W. discriminate (NW W).
      * cbn [negb]. destruct (toWire _) as [w|e] eqn:TW.
        -- exists (SForward c (s_next s) op id), [(s_next s, id)], (s_next s + 1). split; [constructor; now right|]. split; [reflexivity|]. split; [reflexivity|]. split; [reflexivity|].
           split; [intros d ND; cbn; now apply upd_other|]. split; [cbn; now rewrite upd_same|]. reflexivity.
        -- exists (SRaised c e), [(s_next s, id)], (s_next s + 1). split; [constructor; [lia|right; split; [reflexivity|lia]]|]. split; [reflexivity|]. split; [reflexivity|]. split; [reflexivity|].
           split; [intros d ND; cbn; now apply upd_other|]. split; [cbn; now rewrite upd_same|]. intros N _ _ W L0 L1 E. destruct (EN N L0 L1 E) as (w & X). congruence.
    + exists (SRaised c ELostConn), [], (s_next s). split; [constructor; [lia|now left]|]. split; [reflexivity|]. split; [reflexivity|]. split; [reflexivity|].
      split; [intros d ND; cbn; now apply upd_other|]. split; [cbn; rewrite upd_same; rewrite <- U at 1; rewrite SL; destruct (s_conns s c) as [? ? ? ? [] ?]; reflexivity|]. intros N _ X. discriminate X.
  - unfold send_none. rewrite NA. destruct (l_up (sc_link (s_conns s c))) eqn:U.
    + destruct (wire_has (s_next s) _) eqn:H.
      * exists (SRaised c EAssert), [], (s_next s + 1). split; [constructor; [lia|now left]|]. split; [reflexivity|]. split; [reflexivity|]. split; [reflexivity|].
        split; [reflexivity|]. split; [cbn; rewrite <- U at 1; now rewrite SL|]. intros N _ _ W. discriminate (NW W).
      * destruct (toWire _) as [w|e] eqn:TW.
        -- exists (SForward c (s_next s) op id), [], (s_next s + 1). split; [constructor; now left|]. split; [reflexivity|]. split; [reflexivity|]. split; [reflexivity|].
           split; [reflexivity|]. split; [cbn; rewrite <- U at 1; now rewrite SL|]. reflexivity.
        -- exists (SRaised c e), [], (s_next s + 1). split; [constructor; [lia|now left]|]. split; [reflexivity|]. split; [reflexivity|]. split; [reflexivity|].
           split; [reflexivity|]. split; [cbn; rewrite <- U at 1; now rewrite SL|]. intros N _ _ W L0 L1 E. destruct (EN N L0 L1 E) as (w & X). congruence.
    + exists (SRaised c ELostConn), [], (s_next s). split; [constructor; [lia|now left]|]. split; [reflexivity|]. split; [reflexivity|]. split; [reflexivity|].
      split; [reflexivity|]. split; [cbn; rewrite <- U at 1; now rewrite SL|]. intros N _ X. discriminate X.
Qed.

Lemma quiet_app {A} (f : sev -> list A) t e : f e = [] -> flat_map f (t ++ [e]) = flat_map f t.
Proof. intros E. rewrite flat_map_app. cbn. now rewrite E, !app_nil_r. Qed.

Lemma wired0 next : wired (s0 next).
Proof. split; cbn; try contradiction. intros c. constructor. Qed.

(** one more event and something registered *)
Lemma client_queue_wired c id op s : In (SGot c id op) (s_trace s) -> wired s -> wired (client_queue c id op s).
Proof.
  intros G W. destruct (client_queue_spec c id op s) as (e & w & n & E & N & Q & T & O & M & _). cbn zeta in *. set (s' := client_queue c id op s) in *.
  assert (LE : s_next s <= n) by (destruct E; lia).
  assert (WN : forall b i, In (b, i) w -> b = s_next s /\ i = id /\ b < n).
  { intros b i I. destruct E as [e n w L [X|(X & L2)]|w [X|X]]; subst w; try contradiction; destruct I as [I|[]]; injection I as <- <-; repeat split; lia. }
  assert (WI : forall d b i, In (b, i) (l_wire (sc_link (s_conns s' d))) -> In (b, i) (l_wire (sc_link (s_conns s d))) \/ d = c /\ In (b, i) w).
  { intros d b i I. destruct (Nat.eq_dec d c) as [->|ND]; [rewrite M in I; cbn in I; apply in_app_or in I as [I|I]; auto|rewrite (O d ND) in I; auto]. }
  assert (TI : forall x, In x (s_trace s') -> In x (s_trace s) \/ x = e) by (intros x I; rewrite T in I; apply in_app_or in I as [I|[I|[]]]; auto).
  assert (TI2 : forall x, In x (s_trace s) -> In x (s_trace s')) by (intros x I; rewrite T; apply in_or_app; now left).
  assert (EF : forall d b o i, SForward d b o i = e -> d = c /\ b = s_next s /\ o = op /\ i = id /\ b < n).
  { intros d b o i X. destruct E; [discriminate|]. injection X as -> -> -> ->. repeat split; lia. }
  split.
  - intros d b i I. rewrite N. apply WI in I as [I|(-> & I)]; [pose proof (w_wire s W _ _ _ I); lia|apply WN in I; lia].
  - intros d. destruct (Nat.eq_dec d c) as [->|ND]; [|rewrite (O d ND); apply (w_nodup s W)]. rewrite M. cbn [set_link sc_link l_wire]. rewrite map_app.
    assert (ND : NoDup (map fst w)) by (destruct E as [e n w L [X|(X & L2)]|w [X|X]]; subst w; repeat constructor; intros []).
    pose proof (w_nodup s W c) as N1. assert (NI : forall x, In x (map fst (l_wire (sc_link (s_conns s c)))) -> x < s_next s).
    { intros x I. apply in_map_iff in I as ((b & i) & <- & I). exact (w_wire s W _ _ _ I). }
    assert (WE : map fst w = [] \/ map fst w = [s_next s]) by (destruct E as [e n w L [X|(X & L2)]|w [X|X]]; subst w; auto).
    destruct WE as [-> | ->]; [now rewrite app_nil_r|]. apply NoDup_snoc; auto. intros I. apply NI in I. lia.
  - intros d c' b i o i' I F. apply WI in I as [I|(-> & I)]; apply TI in F as [F|F].
    + exact (w_once s W _ _ _ _ _ _ I F).
    + apply EF in F as (_ & -> & _). pose proof (w_wire s W _ _ _ I). lia.
    + apply WN in I as (-> & _). pose proof (w_fwd s W _ _ _ _ F). lia.
    + apply WN in I as (-> & -> & _). apply EF in F as (-> & _ & _ & -> & _). auto.
  - intros d b i I. apply WI in I as [I|(-> & I)]; [apply (w_src s W) in I as (o & I); eauto|]. apply WN in I as (_ & -> & _). eauto.
  - intros d b o i I. rewrite N. apply TI in I as [I|I]; [pose proof (w_fwd s W _ _ _ _ I); lia|apply EF in I; lia].
  - intros d i o I. rewrite Q in I. apply TI2. now apply (w_got s W).
  - intros d b v I. rewrite N. apply TI in I as [I|I]; [pose proof (w_arr s W _ _ _ I); lia|destruct E; discriminate].
  - intros d i v b I. apply TI in I as [I|I]; [|destruct E; discriminate]. apply (w_rep s W) in I as (L & I & o & J). rewrite N. split; [lia|]. split; eauto.
  - intros d c' b o i I v J. apply TI in J as [J|J]; [|destruct E; discriminate]. apply TI in I as [I|I]; [exact (w_same s W _ _ _ _ _ I v J)|].
    apply EF in I as (_ & -> & _). pose proof (w_arr s W _ _ _ J). lia.
  - intros d c' b o o' i i' I J. apply TI in I as [I|I]; apply TI in J as [J|J].
    + exact (w_uniq s W _ _ _ _ _ _ _ I J).
    + apply EF in J as (_ & -> & _). pose proof (w_fwd s W _ _ _ _ I). lia.
    + apply EF in I as (_ & -> & _). pose proof (w_fwd s W _ _ _ _ J). lia.
    + apply EF in I as (-> & _ & -> & -> & _). apply EF in J as (-> & _ & -> & -> & _). auto.
Qed.

(** What is not passed on, received or written *)
Definition silent (e : sev) : Prop := match e with SForward _ _ _ _ | SArrived _ _ _ | SReply _ _ _ _ => False | _ => True end.
Definition shrinks (w w' : list (Z * pv)) : Prop := w' = w \/ w' = [] \/ exists i, w' = wire_del i w.
Lemma shrinks_in w w' x : shrinks w w' -> In x w' -> In x w.
Proof. intros [-> | [-> | (i & ->)]] I; [exact I|contradiction|]. apply filter_In in I. tauto. Qed.
Lemma filter_nodup {A B} (f : A -> B) g (l : list A) : NoDup (map f l) -> NoDup (map f (filter g l)).
Proof.
  induction l as [|x l IH]; cbn; [constructor|]. intros N. apply NoDup_cons_iff in N as (NI & N). destruct (g x); [|auto]. cbn. constructor; [|auto].
  intros I. apply NI. apply in_map_iff in I as (y & E & I). apply filter_In in I. apply in_map_iff. exists y. tauto.
Qed.
Lemma shrinks_nodup w w' : shrinks w w' -> NoDup (map fst w) -> NoDup (map fst w').
Proof. intros [-> | [-> | (i & ->)]] N; [exact N|constructor|]. now apply filter_nodup. Qed.
Lemma silent_wired s s' : s_next s <= s_next s' -> (exists t, s_trace s' = s_trace s ++ t /\ Forall silent t) ->
  (forall d, shrinks (l_wire (sc_link (s_conns s d))) (l_wire (sc_link (s_conns s' d)))) ->
  (forall c id op, In (c, (id, op)) (s_waiting s') -> In (c, (id, op)) (s_waiting s) \/ In (SGot c id op) (s_trace s')) -> wired s -> wired s'.
Proof.
  intros LE (t & T & SI) SH Q W. rewrite Forall_forall in SI.
  assert (TI : forall x, In x (s_trace s') -> In x (s_trace s) \/ silent x) by (intros x I; rewrite T in I; apply in_app_or in I as [I|I]; auto).
  assert (TI2 : forall x, In x (s_trace s) -> In x (s_trace s')) by (intros x I; rewrite T; apply in_or_app; now left).
  split.
  - intros d b i I. apply (shrinks_in _ _ _ (SH d)) in I. pose proof (w_wire s W _ _ _ I). lia.
  - intros d. exact (shrinks_nodup _ _ (SH d) (w_nodup s W d)).
  - intros d c' b i o i' I F. apply (shrinks_in _ _ _ (SH d)) in I. apply TI in F as [F|[]]. exact (w_once s W _ _ _ _ _ _ I F).
  - intros d b i I. apply (shrinks_in _ _ _ (SH d)) in I. apply (w_src s W) in I as (o & I). eauto.
  - intros d b o i I. apply TI in I as [I|[]]. pose proof (w_fwd s W _ _ _ _ I). lia.
  - intros d i o I. apply Q in I as [I|I]; [apply TI2; now apply (w_got s W)|exact I].
  - intros d b v I. apply TI in I as [I|[]]. pose proof (w_arr s W _ _ _ I). lia.
  - intros d i v b I. apply TI in I as [I|[]]. apply (w_rep s W) in I as (L & I & o & J). split; [lia|]. split; eauto.
  - intros d c' b o i I v J. apply TI in J as [J|[]]. apply TI in I as [I|[]]. exact (w_same s W _ _ _ _ _ I v J).
  - intros d c' b o o' i i' I J. apply TI in I as [I|[]]; apply TI in J as [J|[]]. exact (w_uniq s W _ _ _ _ _ _ _ I J).
Qed.

Definition grown (x x' : sconn) : Prop := exists w, x' = set_link (mkLink (l_up (sc_link x)) (l_wire (sc_link x) ++ w)) x.
Lemma grown_refl x : grown x x. Proof. exists []. destruct x as [? ? ? ? [] ?]; unfold set_link; cbn. now rewrite app_nil_r. Qed.
Lemma grown_trans x y z : grown x y -> grown y z -> grown x z.
Proof. intros (w & ->) (w' & ->). exists (w ++ w'). cbn. now rewrite app_assoc. Qed.
Lemma grown_client x x' : grown x x' -> sc_client x' = sc_client x. Proof. intros (w & ->). reflexivity. Qed.
Lemma grown_open x x' : grown x x' -> sc_open x' = sc_open x. Proof. intros (w & ->). reflexivity. Qed.
Lemma grown_conn x x' : grown x x' -> sc_conn x' = sc_conn x. Proof. intros (w & ->). reflexivity. Qed.
Lemma grown_phase x x' : grown x x' -> sc_phase x' = sc_phase x. Proof. intros (w & ->). reflexivity. Qed.
Lemma grown_up x x' : grown x x' -> l_up (sc_link x') = l_up (sc_link x). Proof. intros (w & ->). reflexivity. Qed.

Lemma pending_in c id op l : In (c, (id, op)) l -> In (id, op) (pending c l).
Proof. intros I. unfold pending. apply in_flat_map. exists (c, (id, op)). split; [exact I|]. cbn. rewrite Nat.eqb_refl. now left. Qed.

Lemma release_spec l : forall s, s_waiting s = l -> wired s -> let s' := release l s in
  wired s' /\ s_waiting s' = [] /\ s_next s <= s_next s' /\ (forall d, grown (s_conns s d) (s_conns s' d)) /\
  forall c, asked c (s_trace s') = asked c (s_trace s) /\ (forall b, told c b (s_trace s') = told c b (s_trace s)) /\ (forall b, answered c b (s_trace s') = answered c b (s_trace s)) /\
    exists o, passed c (s_trace s') = passed c (s_trace s) ++ o /\ subseq o (pending c l) /\
      (forall N, sc_client (s_conns s c) = true -> l_up (sc_link (s_conns s c)) = true -> 0 <= s_next s -> s_next s' <= N ->
         Forall (fun r => encodable N (snd r)) (pending c l) -> o = pending c l).
Proof.
  induction l as [|(d & (id & op)) l IH]; intros s Q W; cbn zeta.
  - cbn [release]. split; [exact W|]. split; [exact Q|]. split; [lia|]. split; [intros d; apply grown_refl|]. intros c. split; [reflexivity|]. split; [reflexivity|]. split; [reflexivity|].
    exists []. split; [now rewrite app_nil_r|]. split; [constructor|reflexivity].
  - cbn [release]. set (s1 := with_waiting l s).
    assert (G : In (SGot d id op) (s_trace s1)) by (apply (w_got s W); rewrite Q; now left).
    assert (W1 : wired s1).
    { apply (silent_wired s); [cbn; lia|exists []; split; [cbn; now rewrite app_nil_r|constructor]|intros c; now left| |exact W]. intros c i o I. left. rewrite Q. now right. }
    pose proof (client_queue_wired d id op s1 G W1) as W2. destruct (client_queue_spec d id op s1) as (e & w & n & E & N & Q2 & T & O & M & X). cbn zeta in *.
    set (s2 := client_queue d id op s1) in *. destruct (IH s2 Q2 W2) as (A1 & A2 & A3 & A4 & A5). cbn zeta in *. clear IH. set (s3 := release l s2) in *.
    assert (G2 : forall c, grown (s_conns s c) (s_conns s2 c)).
    { intros c. destruct (Nat.eq_dec c d) as [->|ND]; [rewrite M; exists w; reflexivity|rewrite (O c ND); apply grown_refl]. }
    assert (L12 : s_next s <= n) by (change (s_next s1) with (s_next s) in *; destruct E; cbn in *; lia).
    split; [exact A1|]. split; [exact A2|]. split; [lia|]. split; [intros c; exact (grown_trans _ _ _ (G2 c) (A4 c))|].
    intros c. destruct (A5 c) as (B1 & B2 & B3 & o & B4 & B5 & B6). rewrite B1, B4, T. split; [apply quiet_app; destruct E; reflexivity|].
    split; [intros b; rewrite B2, T; apply quiet_app; destruct E; reflexivity|]. split; [intros b; rewrite B3, T; apply quiet_app; destruct E; reflexivity|].
    change (s_trace s1) with (s_trace s). rewrite passed_app, <- app_assoc. exists (passed c [e] ++ o). split; [reflexivity|].
    change (pending c ((d, (id, op)) :: l)) with ((if Nat.eqb d c then [(id, op)] else []) ++ pending c l).
    split.
    + apply subseq_app; [|exact B5]. destruct E; cbn; [constructor|]. destruct (Nat.eqb d c); apply subseq_refl.
    + intros N0 C U L0 LN FE. apply Forall_app in FE as (FE1 & FE2).
      rewrite (B6 N0); [| rewrite (grown_client _ _ (G2 c)); exact C | rewrite (grown_up _ _ (G2 c)); exact U | lia | exact LN | exact FE2].
      f_equal. destruct (Nat.eqb d c) eqn:DC.
      * apply Nat.eqb_eq in DC. subst d. rewrite (X N0 C U W1 L0); [cbn; now rewrite Nat.eqb_refl|lia|exact (Forall_inv FE1)].
      * destruct E; cbn; [reflexivity|]. now rewrite DC.
Qed.

(** *** One step *)
(** the same but for unbound and some requests that are forgotten *)
Record akin (x y : sconn) : Prop := { k_phase : sc_phase y = sc_phase x; k_conn : sc_conn y = sc_conn x; k_open : sc_open y = sc_open x; k_client : sc_client y = sc_client x;
  k_up : l_up (sc_link y) = l_up (sc_link x); k_wire : shrinks (l_wire (sc_link x)) (l_wire (sc_link y)) }.
Lemma akin_refl x : akin x x. Proof. split; auto. now left. Qed.

Lemma handle_cases c msg s : shandle c msg s = s \/ (exists e, shandle c msg s = semit (SRaised c e) s) \/
  exists id op s1, shandle c msg s = when_connected c id op s1 /\ s_trace s1 = s_trace s ++ [SGot c id op] /\ s_next s1 = s_next s /\ s_waiting s1 = s_waiting s /\
    forall d, akin (s_conns s d) (s_conns s1 d) /\ sc_link (s_conns s1 d) = sc_link (s_conns s d).
Proof.
  unfold shandle. destruct msg as [| | | | | | | | |tag id op cs| | | | | | | | | | | |]; try (right; left; eexists; reflexivity).
  destruct (kind_of op); [|right; left; eexists; reflexivity].
  set (body := match op with ONull _ _ => _ | _ => _ end).
  assert (GO : exists s1, body = when_connected c id op s1 /\ s_trace s1 = s_trace s ++ [SGot c id op] /\ s_next s1 = s_next s /\ s_waiting s1 = s_waiting s /\
    forall d, akin (s_conns s d) (s_conns s1 d) /\ sc_link (s_conns s1 d) = sc_link (s_conns s d)).
  { assert (D : exists s1, when_connected c id op (semit (SGot c id op) s) = when_connected c id op s1 /\ s_trace s1 = s_trace s ++ [SGot c id op] /\ s_next s1 = s_next s /\ s_waiting s1 = s_waiting s /\
      forall d, akin (s_conns s d) (s_conns s1 d) /\ sc_link (s_conns s1 d) = sc_link (s_conns s d)).
    { eexists. split; [reflexivity|]. split; [reflexivity|]. split; [reflexivity|]. split; [reflexivity|]. intros d. split; [apply akin_refl|reflexivity]. }
    unfold body. destruct op as [| | |k tg| | | | | | | | | | | | | | | | | |tg nm v]; try exact D. destruct k; try exact D.
    eexists. split; [reflexivity|]. split; [reflexivity|]. split; [reflexivity|]. split; [reflexivity|]. intros d. cbn. destruct (Nat.eq_dec d c) as [->|ND].
    - rewrite upd_same. split; [|reflexivity]. split; try reflexivity. now left.
    - rewrite upd_other by exact ND. split; [apply akin_refl|reflexivity]. }
  clearbody body. assert (GO' : body = s \/ (exists e, body = semit (SRaised c e) s) \/ exists id0 op0 s1, body = when_connected c id0 op0 s1 /\ s_trace s1 = s_trace s ++ [SGot c id0 op0] /\ s_next s1 = s_next s /\ s_waiting s1 = s_waiting s /\
    forall d, akin (s_conns s d) (s_conns s1 d) /\ sc_link (s_conns s1 d) = sc_link (s_conns s d)) by (right; right; exists id, op; exact GO).
  destruct id as [|z|bs]; try exact GO'. destruct z; [now left|exact GO'|exact GO'].
Qed.
Lemma response_cases c msg s : sresponse c msg s = s \/ (exists e, sresponse c msg s = semit (SRaised c e) s) \/
  exists i v rid r, In (i, rid) (l_wire (sc_link (s_conns s c))) /\ let s' := sresponse c msg s in
    s_trace s' = s_trace s ++ SArrived c i v :: r /\ s_next s' = s_next s /\ s_waiting s' = s_waiting s /\ (forall d, akin (s_conns s d) (s_conns s' d)) /\
    (r = [] \/ r = [SReply c rid v i] \/ exists e, r = [SRaised c e]) /\ (sc_conn (s_conns s c) = true -> sc_open (s_conns s c) = true -> writable rid v -> r = [SReply c rid v i]) /\
    (sc_open (s_conns s c) = false -> r <> [SReply c rid v i]) /\
    (r = [SReply c rid v i] -> last_response v = true -> l_wire (sc_link (s_conns s' c)) = wire_del i (l_wire (sc_link (s_conns s c)))).
Proof.
  unfold sresponse. destruct msg as [| | | | | | | | |tag id v cs| | | | | | | | | | | |]; try (right; left; eexists; reflexivity).
  destruct (is_response v); [|right; left; eexists; reflexivity]. destruct id as [|i|bs]; try (right; left; eexists; reflexivity). destruct (i =? 0); [now left|].
  destruct (find _ _) as [(b & rid)|] eqn:F; [|right; left; eexists; reflexivity]. right; right. apply find_some in F as (I & E). apply Z.eqb_eq in E. cbn in E. subst b.
  unfold sreply. cbn [semit s_conns]. assert (FIN : forall t, let s' := (let x := s_conns (mkS (s_conns s) (s_waiting s) (s_next s) t) c in
      if last_response v then with_sconn c (set_link (mkLink (l_up (sc_link x)) (wire_del i (l_wire (sc_link x)))) x) (mkS (s_conns s) (s_waiting s) (s_next s) t) else mkS (s_conns s) (s_waiting s) (s_next s) t) in
      s_trace s' = t /\ s_next s' = s_next s /\ s_waiting s' = s_waiting s /\ (forall d, akin (s_conns s d) (s_conns s' d)) /\
      (last_response v = true -> l_wire (sc_link (s_conns s' c)) = wire_del i (l_wire (sc_link (s_conns s c))))).
  { intros t. cbn zeta. destruct (last_response v); cbn; (split; [reflexivity|]; split; [reflexivity|]; split; [reflexivity|]); (split; [intros d|]); [| |apply akin_refl|discriminate]; [|intros _; now rewrite upd_same].
    destruct (Nat.eq_dec d c) as [->|ND]; [rewrite upd_same; split; cbn; auto; right; right; eauto|rewrite upd_other by exact ND; apply akin_refl]. }
  destruct (sc_conn (s_conns s c)) eqn:C.
  - destruct (toWire (OMessage (class_tag KMessage) rid v None)) as [w|e] eqn:TW.
    + destruct (sc_open (s_conns s c)) eqn:O.
      * exists i, v, rid, [SReply c rid v i]. split; [exact I|]. destruct (FIN ((s_trace s ++ [SArrived c i v]) ++ [SReply c rid v i])) as (A1 & A2 & A3 & A4 & A5). cbn zeta in *.
        split; [etransitivity; [exact A1|now rewrite <- app_assoc]|]. split; [exact A2|]. split; [exact A3|]. split; [exact A4|]. split; [auto|]. split; [auto|]. split; [discriminate|]. auto.
      * exists i, v, rid, []. split; [exact I|]. destruct (FIN (s_trace s ++ [SArrived c i v])) as (A1 & A2 & A3 & A4 & A5). cbn zeta in *. 
        split; [exact A1|]. split; [exact A2|]. split; [exact A3|]. split; [exact A4|]. split; [auto|]. split; [discriminate|]. split; discriminate.
    + exists i, v, rid, [SRaised c e]. split; [exact I|]. cbn [semit s_conns s_trace s_waiting s_next]. rewrite <- app_assoc. split; [reflexivity|]. split; [reflexivity|]. split; [reflexivity|]. split; [intros d; apply akin_refl|].
      split; [eauto|]. split; [|split; discriminate]. intros _ _ (w & X). change (class_tag KMessage) with 16 in TW. congruence.
  - exists i, v, rid, [SRaised c ELostConn]. split; [exact I|]. cbn [semit s_conns s_trace s_waiting s_next]. rewrite <- app_assoc. split; [reflexivity|]. split; [reflexivity|]. split; [reflexivity|]. split; [intros d; apply akin_refl|].
    split; [eauto|]. split; [discriminate|]. split; discriminate.
Qed.

Definition idle (e : sev) : Prop := match e with SForward _ _ _ _ | SArrived _ _ _ | SReply _ _ _ _ | SGot _ _ _ => False | _ => True end.
Record idle_step (e : sevent) (s s' : sst) : Prop := {
  i_next : s_next s <= s_next s';
  i_trace : exists t, s_trace s' = s_trace s ++ t /\ Forall idle t;
  i_waiting : s_waiting s' = s_waiting s;
  i_wire : forall d, shrinks (l_wire (sc_link (s_conns s d))) (l_wire (sc_link (s_conns s' d)));
  i_client : forall d, sc_client (s_conns s' d) = true -> sc_client (s_conns s d) = true;
  i_stays : forall c, stays c e -> sc_client (s_conns s' c) = sc_client (s_conns s c) /\ l_up (sc_link (s_conns s' c)) = l_up (sc_link (s_conns s c));
  i_phase : forall c, stays c e -> sc_phase (s_conns s' c) <> PhNew -> sc_phase (s_conns s c) = PhNew /\ sc_conn (s_conns s' c) = true /\ sc_open (s_conns s' c) = true \/
      sc_phase (s_conns s c) <> PhNew /\ sc_conn (s_conns s' c) = sc_conn (s_conns s c) /\ sc_open (s_conns s' c) = sc_open (s_conns s c);
  i_new : forall c, sc_phase (s_conns s' c) = PhNew -> sc_phase (s_conns s c) = PhNew;
  i_done : forall c, sc_phase (s_conns s' c) <> PhDone -> sc_phase (s_conns s c) <> PhDone }.
Lemma idle_refl e s : idle_step e s s.
Proof.
  split; [lia| |reflexivity|intros; now left|auto|auto| |auto|congruence].
  - exists []. split; [now rewrite app_nil_r|constructor].
  - intros c _ P. right. auto.
Qed.
Lemma idle_emit e x s s' : idle x -> idle_step e s s' -> idle_step e s (semit x s').
Proof.
  intros X [A (t & B & C) D E F G H I J]. split; auto. exists (t ++ [x]). split; [cbn; rewrite B; now rewrite app_assoc|]. apply Forall_app. auto.
Qed.
Lemma idle_next e s n : s_next s <= n -> idle_step e s (with_snext n s).
Proof. intros L. destruct (idle_refl e s) as [A B D E F G H I J]. split; auto. Qed.
Lemma idle_conn e s c x : let y := s_conns s c in
  shrinks (l_wire (sc_link y)) (l_wire (sc_link x)) -> (sc_client x = true -> sc_client y = true) ->
  (stays c e -> sc_client x = sc_client y /\ l_up (sc_link x) = l_up (sc_link y)) ->
  (stays c e -> sc_phase x <> PhNew -> sc_phase y = PhNew /\ sc_conn x = true /\ sc_open x = true \/ sc_phase y <> PhNew /\ sc_conn x = sc_conn y /\ sc_open x = sc_open y) ->
  (sc_phase x = PhNew -> sc_phase y = PhNew) -> (sc_phase x <> PhDone -> sc_phase y <> PhDone) -> forall s1, idle_step e s s1 -> s_conns s1 = s_conns s -> idle_step e s (with_sconn c x s1).
Proof.
  cbn zeta. intros X1 X2 X3 X4 X5 X6 s1 [A B D E F G H I J] EC. split; auto; cbn [with_sconn s_conns]; rewrite EC; intros d; destruct (Nat.eq_dec d c) as [->|ND]; try rewrite upd_same; try rewrite (upd_other c x _ d ND); auto.
  all: try (now left); try congruence; intros _ P; right; auto.
Qed.

Inductive sstep_case (s : sst) (e : sevent) : sst -> Prop :=
| SC_idle s' : idle_step e s s' -> sstep_case s e s'
| SC_ask c id op s1 : s_trace s1 = s_trace s ++ [SGot c id op] -> s_next s1 = s_next s -> s_waiting s1 = s_waiting s ->
    (forall d, akin (s_conns s d) (s_conns s1 d) /\ sc_link (s_conns s1 d) = sc_link (s_conns s d)) -> sc_open (s_conns s c) = true -> sstep_case s e (when_connected c id op s1)
| SC_up c x : e = SUp c -> sc_phase (s_conns s c) = PhConnecting -> x = mkC PhDone (sc_conn (s_conns s c)) (sc_open (s_conns s c)) true (mkLink true []) (sc_unbound (s_conns s c)) ->
    sstep_case s e (release (s_waiting s) (with_sconn c x s))
| SC_resp c i v rid r s' : In (i, rid) (l_wire (sc_link (s_conns s c))) ->
    s_trace s' = s_trace s ++ SArrived c i v :: r -> s_next s' = s_next s -> s_waiting s' = s_waiting s -> (forall d, akin (s_conns s d) (s_conns s' d)) ->
    (r = [] \/ r = [SReply c rid v i] \/ exists e, r = [SRaised c e]) -> (sc_conn (s_conns s c) = true -> sc_open (s_conns s c) = true -> writable rid v -> r = [SReply c rid v i]) ->
    (sc_open (s_conns s c) = false -> r <> [SReply c rid v i]) ->
    (r = [SReply c rid v i] -> last_response v = true -> l_wire (sc_link (s_conns s' c)) = wire_del i (l_wire (sc_link (s_conns s c)))) -> sstep_case s e s'.
Ltac idl := try (left; reflexivity); try (let X := fresh in intros X; exfalso; apply X; reflexivity); try congruence; try (intros; split; reflexivity);
  try (intros _ ?; right; repeat split; congruence); try (intros _ _; left; repeat split; congruence); try (let X := fresh in intros X; exfalso; exact (X eq_refl)).
Lemma step_cases s e : sstep_case s e (sstep s e).
Proof.
  destruct e as [c|c|c|c msg|c msg|c|c|n]; cbn [sstep].
  - destruct (sc_phase (s_conns s c)) eqn:P; try (apply SC_idle; apply idle_refl). apply SC_idle. apply idle_conn; cbn; try exact (idle_refl _ _); idl.
  - destruct (sc_phase (s_conns s c)) eqn:P; try (apply SC_idle; apply idle_refl). eapply SC_up; [reflexivity|exact P|reflexivity].
  - destruct (sc_phase (s_conns s c)) eqn:P; try (apply SC_idle; apply idle_refl). apply SC_idle. apply idle_emit; [exact I|]. apply idle_conn; cbn; try exact (idle_refl _ _); idl.
  - destruct (sc_open (s_conns s c)) eqn:O; [|apply SC_idle; apply idle_refl]. destruct (handle_cases c msg s) as [-> | [(x & ->) | (id & op & s1 & -> & A & B & C & D)]].
    + apply SC_idle. apply idle_refl.
    + apply SC_idle. apply idle_emit; [exact I|apply idle_refl].
    + apply SC_ask; auto.
  - destruct (l_up _); [|apply SC_idle; apply idle_refl]. destruct (response_cases c msg s) as [-> | [(x & ->) | (i & v & rid & r & I & A & B & C & D & E & F & G & H)]].
    + apply SC_idle. apply idle_refl.
    + apply SC_idle. apply idle_emit; [exact I|apply idle_refl].
    + cbn zeta in *. eapply SC_resp; eauto.
  - apply SC_idle. apply idle_conn; cbn; try exact (idle_refl _ _); idl. right. now left.
  - destruct (sc_open (s_conns s c)) eqn:O; [|apply SC_idle; apply idle_refl]. apply SC_idle. destruct (sc_client (s_conns s c)) eqn:C.
    + apply idle_emit; [exact I|]. apply idle_conn; cbn; idl.
      * destruct (l_up _); [|apply idle_refl]. destruct (sc_unbound _); [apply idle_emit; [exact I|apply idle_refl]|]. apply idle_emit; [exact I|]. apply idle_emit; [exact I|]. apply idle_next. lia.
      * destruct (l_up _); [|reflexivity]. destruct (sc_unbound _); reflexivity.
    + apply idle_emit; [exact I|]. apply idle_emit; [exact I|]. apply idle_conn; cbn; try exact (idle_refl _ _); idl.
  - apply SC_idle. apply idle_next. lia.
Qed.

(** *** Invariants *)
Lemma wired_ext s s' : s_trace s' = s_trace s -> s_next s' = s_next s -> s_waiting s' = s_waiting s -> (forall d, shrinks (l_wire (sc_link (s_conns s d))) (l_wire (sc_link (s_conns s' d)))) -> wired s -> wired s'.
Proof.
  intros T N Q SH W. apply (silent_wired s); [lia|exists []; split; [now rewrite app_nil_r|constructor]|exact SH| |exact W]. intros c id op. rewrite Q. auto.
Qed.
Lemma when_connected_cases c id op s : sc_client (s_conns s c) = true /\ when_connected c id op s = client_queue c id op s \/
  sc_client (s_conns s c) = false /\ when_connected c id op s = with_waiting (s_waiting s ++ [(c, (id, op))]) s.
Proof. unfold when_connected. destruct (sc_client _); auto. Qed.
Lemma step_wired s e : wired s -> wired (sstep s e).
Proof.
  intros W. destruct (step_cases s e) as [s' ID|c id op s1 T N Q K O|c x EE P X|c i v rid r s' I T N Q K R WR NO WD].
  - destruct ID as [A (t & B & C) D E F G H _ _]. apply (silent_wired s); [exact A| |exact E| |exact W].
    + exists t. split; [exact B|]. eapply Forall_impl; [|exact C]. intros [| | | | | | |] Y; cbn in *; auto.
    + intros c id op I. rewrite D in I. now left.
  - assert (W1 : wired s1).
    { apply (silent_wired s); [lia|exists [SGot c id op]; split; [exact T|repeat constructor]|intros d; apply (proj1 (K d))| |exact W]. intros c' id' op' I. rewrite Q in I. now left. }
    assert (G : In (SGot c id op) (s_trace s1)) by (rewrite T; apply in_or_app; right; now left).
    destruct (when_connected_cases c id op s1) as [(_ & ->)|(_ & ->)]; [now apply client_queue_wired|].
    apply (silent_wired s1); [cbn; lia|exists []; split; [cbn; now rewrite app_nil_r|constructor]|intros d; now left| |exact W1].
    intros c' id' op' I. apply in_app_or in I as [I|[I|[]]]; [now left|]. injection I as <- <- <-. right. exact G.
  - destruct (release_spec (s_waiting s) (with_sconn c x s) eq_refl) as (A & _); [|exact A]. apply (wired_ext s); auto. intros d. cbn. subst x. destruct (Nat.eq_dec d c) as [->|ND].
    + rewrite upd_same. right. now left.
    + rewrite upd_other by exact ND. now left.
  - assert (TI : forall x, In x (s_trace s') -> In x (s_trace s) \/ x = SArrived c i v \/ x = SReply c rid v i \/ (exists e, x = SRaised c e)).
    { intros x J. rewrite T in J. apply in_app_or in J as [J|[J|J]]; auto. destruct R as [-> | [-> | (ex & ->)]]; [contradiction| |]; destruct J as [<-|[]]; eauto. }
    assert (TI2 : forall x, In x (s_trace s) -> In x (s_trace s')) by (intros x J; rewrite T; apply in_or_app; now left).
    assert (AR : In (SArrived c i v) (s_trace s')) by (rewrite T; apply in_or_app; right; now left).
    assert (SH : forall d, shrinks (l_wire (sc_link (s_conns s d))) (l_wire (sc_link (s_conns s' d)))) by (intros d; apply (K d)). split.
    + intros d b id J. apply (shrinks_in _ _ _ (SH d)) in J. rewrite N. exact (w_wire s W _ _ _ J).
    + intros d. exact (shrinks_nodup _ _ (SH d) (w_nodup s W d)).
    + intros d c' b id op id' J F. apply (shrinks_in _ _ _ (SH d)) in J. apply TI in F as [F|[F|[F|(ex & F)]]]; try discriminate. exact (w_once s W _ _ _ _ _ _ J F).
    + intros d b id J. apply (shrinks_in _ _ _ (SH d)) in J. apply (w_src s W) in J as (op & J). eauto.
    + intros d b op id J. apply TI in J as [J|[J|[J|(ex & J)]]]; try discriminate. rewrite N. exact (w_fwd s W _ _ _ _ J).
    + intros d id op J. rewrite Q in J. apply TI2. now apply (w_got s W).
    + intros d b u J. rewrite N. apply TI in J as [J|[J|[J|(ex & J)]]]; try discriminate; [exact (w_arr s W _ _ _ J)|]. injection J as -> -> ->. exact (w_wire s W _ _ _ I).
    + intros d id u b J. rewrite N. apply TI in J as [J|[J|[J|(ex & J)]]]; try discriminate.
      * apply (w_rep s W) in J as (L & J & op & H). split; [exact L|]. split; eauto.
      * injection J as -> -> -> ->. split; [exact (w_wire s W _ _ _ I)|]. split; [exact AR|]. apply (w_src s W) in I as (op & I). eauto.
    + intros d c' b op id J u J'. apply TI in J as [J|[J|[J|(ex & J)]]]; try discriminate. apply TI in J' as [J'|[J'|[J'|(ex & J')]]]; try discriminate; [exact (w_same s W _ _ _ _ _ J u J')|].
      injection J' as -> -> ->. symmetry. exact (proj1 (w_once s W _ _ _ _ _ _ I J)).
    + intros d c' b op op' id id' J J'. apply TI in J as [J|[J|[J|(ex & J)]]]; try discriminate. apply TI in J' as [J'|[J'|[J'|(ex & J')]]]; try discriminate. exact (w_uniq s W _ _ _ _ _ _ _ J J').
Qed.

Lemma idle_flat {A} (f : sev -> list A) t t' : (forall e, idle e -> f e = []) -> Forall idle t' -> flat_map f (t ++ t') = flat_map f t.
Proof.
  intros F S. rewrite flat_map_app. assert (E : flat_map f t' = []) by (induction S as [|x l H _ IH]; [reflexivity|]; cbn; now rewrite (F x H), IH). now rewrite E, app_nil_r.
Qed.
Lemma asked_resp c d i v r t rid : r = [] \/ r = [SReply d rid v i] \/ (exists e, r = [SRaised d e]) -> asked c (t ++ SArrived d i v :: r) = asked c t /\ passed c (t ++ SArrived d i v :: r) = passed c t.
Proof. intros R. rewrite asked_app, passed_app. destruct R as [-> | [-> | (e & ->)]]; cbn; now rewrite !app_nil_r. Qed.

Section One.
  Variable c : nat.
  Definition A (s : sst) := asked c (s_trace s).
  Definition P (s : sst) := passed c (s_trace s).
  Definition Q (s : sst) := pending c (s_waiting s).
  Definition in_order (s : sst) : Prop := subseq (P s ++ Q s) (A s) /\ (sc_client (s_conns s c) = true -> Q s = []).

  Lemma step_order s e : wired s -> in_order s -> in_order (sstep s e).
  Proof.
    intros W (O & C). destruct (step_cases s e) as [s' ID|d id op s1 T N QQ K OP|d x EE PH X|d i v rid r s' I T N QQ K R WR NO WD].
    - destruct ID as [_ (t & B & F) D _ CL _ _ _ _]. unfold in_order, A, P, Q, asked, passed. rewrite B, D, !(idle_flat _ _ _); try exact F; try (intros [] Y; try contradiction Y; reflexivity).
      split; [exact O|]. intros CC. apply C. now apply CL.
    - assert (A1 : A s1 = A s ++ if Nat.eqb d c then [(id, op)] else []) by (unfold A; rewrite T, asked_app; cbn; now rewrite app_nil_r).
      assert (P1 : P s1 = P s) by (unfold P; rewrite T, passed_app; cbn; apply app_nil_r).
      assert (Q1 : Q s1 = Q s) by (unfold Q; now rewrite QQ).
      assert (C1 : sc_client (s_conns s1 c) = sc_client (s_conns s c)) by (apply (proj1 (K c))).
      destruct (when_connected_cases d id op s1) as [(CC & ->)|(CC & ->)].
      + destruct (client_queue_spec d id op s1) as (x & w & n & E & NN & Q2 & T2 & OO & M & _). cbn zeta in *. unfold in_order, A, P, Q. rewrite Q2, T2.
        fold (Q s1). assert (A2 : asked c (s_trace s1 ++ [x]) = A s1) by (rewrite asked_app; destruct E; cbn; apply app_nil_r). rewrite A2, passed_app. fold (P s1). rewrite A1, P1, Q1.
        assert (C2 : sc_client (s_conns (client_queue d id op s1) c) = sc_client (s_conns s c)) by (destruct (Nat.eq_dec c d) as [->|ND]; [rewrite M; exact C1|rewrite (OO c ND); exact C1]).
        rewrite C2. split; [|exact C]. destruct (Nat.eqb d c) eqn:DC.
        * apply Nat.eqb_eq in DC. subst d. rewrite C in * by (rewrite <- C1; exact CC). rewrite app_nil_r in *. apply subseq_app; [exact O|].
          destruct E; cbn; [constructor|]. rewrite Nat.eqb_refl. apply subseq_refl.
        * assert (E0 : passed c [x] = []) by (destruct E; cbn; [reflexivity|]; now rewrite DC). now rewrite E0, !app_nil_r.
      + unfold in_order, A, P, Q. cbn [with_waiting s_trace s_waiting s_conns]. fold (A s1) (P s1). rewrite pending_app. fold (Q s1). rewrite A1, P1, Q1, C1. cbn. rewrite app_nil_r.
        split; [rewrite app_assoc; apply subseq_app; [exact O|apply subseq_refl]|]. intros C2. rewrite C by exact C2. destruct (Nat.eqb d c) eqn:DC; [|reflexivity]. apply Nat.eqb_eq in DC. subst d. congruence.
    - assert (W1 : wired (with_sconn d x s)).
      { apply (wired_ext s); auto. intros d'. cbn. subst x. destruct (Nat.eq_dec d' d) as [->|ND]; [rewrite upd_same; right; now left|rewrite upd_other by exact ND; now left]. }
      destruct (release_spec (s_waiting s) (with_sconn d x s) eq_refl W1) as (_ & Q2 & _ & _ & H). cbn zeta in *. destruct (H c) as (A1 & _ & _ & o & P1 & SO & _). cbn [with_sconn s_trace] in *.
      unfold in_order, A, P, Q. rewrite Q2, A1, P1. split; [|reflexivity]. cbn [pending flat_map]. rewrite app_nil_r. fold (P s) (A s). rewrite <- (app_nil_r o). apply (subseq_mid _ _ (Q s)); [exact SO|]. rewrite app_nil_r. exact O.
    - destruct (asked_resp c d i v r (s_trace s) rid R) as (A1 & P1). unfold in_order, A, P, Q. rewrite T, A1, P1, QQ, (k_client _ _ (K c)). split; [exact O|exact C].
  Qed.
  Lemma run_inv next es : let s := srun (s0 next) es in wired s /\ in_order s.
  Proof.
    cbn zeta. unfold srun. assert (G : wired (s0 next) /\ in_order (s0 next)) by (split; [apply wired0|]; split; [constructor|discriminate]).
    revert G. generalize (s0 next). induction es as [|e es IH]; intros s (W & O); [split; assumption|]. cbn [fold_left]. apply IH. split; [now apply step_wired|now apply step_order].
  Qed.

  (** *** Nothing is left out *)
  Variable N : Z.
  Definition complete (s : sst) : Prop :=
    (sc_client (s_conns s c) = true -> l_up (sc_link (s_conns s c)) = true) /\ 0 <= s_next s /\
    (s_next s <= N -> Forall (fun r => encodable N (snd r)) (A s) -> P s ++ Q s = A s).
  Lemma step_complete s e : stays c e -> (forall d, e = SUp d -> d <> c -> Q s = []) -> wired s -> in_order s -> complete s -> complete (sstep s e).
  Proof.
    intros ST UN W (O & C) (X1 & X2 & X4). destruct (step_cases s e) as [s' ID|d id op s1 T NX QQ K OP|d x EE PH X|d i v rid r s' I T NX QQ K R WR NO WD].
    - destruct ID as [L (t & B & F) D _ CL SY _ _ _]. unfold complete, A, P, Q, asked, passed. rewrite B, D, !(idle_flat _ _ _); try exact F; try (intros [] Y; try contradiction Y; reflexivity).
      destruct (SY c ST) as (S1 & S2). rewrite S1, S2. split; [exact X1|]. split; [lia|]. intros L1 FE. apply X4; [lia|exact FE].
    - assert (A1 : A s1 = A s ++ if Nat.eqb d c then [(id, op)] else []) by (unfold A; rewrite T, asked_app; cbn; now rewrite app_nil_r).
      assert (P1 : P s1 = P s) by (unfold P; rewrite T, passed_app; cbn; apply app_nil_r).
      assert (Q1 : Q s1 = Q s) by (unfold Q; now rewrite QQ).
      assert (C1 : sc_client (s_conns s1 c) = sc_client (s_conns s c)) by (apply (proj1 (K c))).
      assert (U1 : l_up (sc_link (s_conns s1 c)) = l_up (sc_link (s_conns s c))) by (apply (proj1 (K c))).
      assert (W1 : wired s1).
      { apply (silent_wired s); [lia|exists [SGot d id op]; split; [exact T|repeat constructor]|intros d'; apply (proj1 (K d'))| |exact W]. intros c' id' op' I. rewrite QQ in I. now left. }
      destruct (when_connected_cases d id op s1) as [(CC & ->)|(CC & ->)].
      + destruct (client_queue_spec d id op s1) as (x & w & n & E & NN & Q2 & T2 & OO & M & XX). cbn zeta in *. unfold complete, A, P, Q. rewrite Q2, T2, NN.
        fold (Q s1). assert (A2 : asked c (s_trace s1 ++ [x]) = A s1) by (rewrite asked_app; destruct E; cbn; apply app_nil_r). rewrite A2, passed_app. fold (P s1). rewrite A1, P1, Q1.
        assert (C2 : sc_client (s_conns (client_queue d id op s1) c) = sc_client (s_conns s c)) by (destruct (Nat.eq_dec c d) as [->|ND]; [rewrite M; exact C1|rewrite (OO c ND); exact C1]).
        assert (U2 : l_up (sc_link (s_conns (client_queue d id op s1) c)) = l_up (sc_link (s_conns s c))) by (destruct (Nat.eq_dec c d) as [->|ND]; [rewrite M; exact U1|rewrite (OO c ND); exact U1]).
        rewrite C2, U2. split; [exact X1|]. assert (LE : s_next s <= n) by (rewrite <- NX; destruct E; lia). split; [lia|]. intros LN FE.
        apply Forall_app in FE as (FE1 & FE2). rewrite <- X4; [|lia|exact FE1]. destruct (Nat.eqb d c) eqn:DC.
        * apply Nat.eqb_eq in DC. subst d. rewrite C in * by (rewrite <- C1; exact CC). rewrite !app_nil_r in *. f_equal.
          rewrite (XX N); [cbn; now rewrite Nat.eqb_refl|exact CC|rewrite U1; apply X1; rewrite <- C1; exact CC|exact W1|lia|exact LN|exact (Forall_inv FE2)].
        * assert (E0 : passed c [x] = []) by (destruct E; cbn; [reflexivity|]; now rewrite DC). now rewrite E0, !app_nil_r.
      + unfold complete, A, P, Q. cbn [with_waiting s_trace s_waiting s_conns s_next]. fold (A s1) (P s1). rewrite pending_app. fold (Q s1). rewrite A1, P1, Q1, C1, U1, NX. cbn. rewrite app_nil_r.
        split; [exact X1|]. split; [exact X2|]. intros LN FE. apply Forall_app in FE as (FE1 & FE2). now rewrite app_assoc, X4.
    - assert (W1 : wired (with_sconn d x s)).
      { apply (wired_ext s); auto. intros d'. cbn. subst x. destruct (Nat.eq_dec d' d) as [->|ND]; [rewrite upd_same; right; now left|rewrite upd_other by exact ND; now left]. }
      destruct (release_spec (s_waiting s) (with_sconn d x s) eq_refl W1) as (_ & Q2 & LE & GR & H). cbn zeta in *. destruct (H c) as (A1 & _ & _ & o & P1 & SO & EX). cbn [with_sconn s_trace s_next] in *.
      unfold complete. rewrite (grown_client _ _ (GR c)), (grown_up _ _ (GR c)). unfold A, P, Q. rewrite Q2, A1, P1. cbn [with_sconn s_conns pending flat_map] in *. rewrite app_nil_r. fold (P s) (A s).
      destruct (Nat.eq_dec d c) as [->|ND].
      + rewrite upd_same in *. subst x. split; [reflexivity|]. split; [lia|]. intros LN FE. assert (E : P s ++ pending c (s_waiting s) = A s) by (apply X4; [lia|exact FE]).
        rewrite (EX N); [exact E|reflexivity|reflexivity|exact X2|exact LN|]. rewrite <- E in FE. now apply Forall_app in FE.
      + rewrite (upd_other d x _ c (not_eq_sym ND)) in *. split; [exact X1|]. split; [lia|]. intros LN FE. assert (E : P s ++ Q s = A s) by (apply X4; [lia|exact FE]).
        assert (Q0 : Q s = []) by (apply (UN d EE); auto). fold (Q s) in SO. rewrite Q0 in *. inversion SO. exact E.
    - destruct (asked_resp c d i v r (s_trace s) rid R) as (A1 & P1). unfold complete, A, P, Q. rewrite T, A1, P1, QQ, NX, (k_client _ _ (K c)), (k_up _ _ (K c)). auto.
  Qed.
  Lemma run_complete next es : 0 <= next -> Forall (stays c) es -> undisturbed c (s0 next) es -> let s := srun (s0 next) es in
    (s_next s <= N -> Forall (fun r => encodable N (snd r)) (A s) -> P s ++ Q s = A s) /\ (sc_client (s_conns s c) = true -> Q s = []).
  Proof.
    intros NX ST UN. cbn zeta.
    assert (G : forall es' s, wired s -> in_order s -> complete s -> Forall (stays c) es' -> (forall es1 d es2, es' = es1 ++ SUp d :: es2 -> d <> c -> Q (srun s es1) = []) -> complete (srun s es') /\ in_order (srun s es')).
    { induction es' as [|e es' IH]; intros s W O X F U; [split; assumption|]. cbn [srun fold_left]. apply IH.
      - now apply step_wired.
      - now apply step_order.
      - apply step_complete; auto; [exact (Forall_inv F)|]. intros d E ND. apply (U [] d es'); [now rewrite E|exact ND].
      - exact (Forall_inv_tail F).
      - intros es1 d es2 E ND. apply (U (e :: es1) d es2); [now rewrite E|exact ND]. }
    destruct (G es (s0 next)) as (X & O); auto.
    - apply wired0.
    - split; [constructor|discriminate].
    - split; [discriminate|]. split; [exact NX|]. reflexivity.
    - split; [apply X|apply O].
  Qed.
End One.

(** *** Responses *)
Lemma In_map_flat {A B} (f : A -> list B) x l : flat_map f l = [] -> In x l -> f x = [].
Proof. induction l as [|y l IH]; [contradiction|]. cbn. intros E [->|I]; apply app_eq_nil in E as (E1 & E2); auto. Qed.
Lemma none_told c b s : wired s -> s_next s <= b -> told c b (s_trace s) = [] /\ answered c b (s_trace s) = [].
Proof.
  intros W L. split.
  - unfold told. assert (H : forall e, In e (s_trace s) -> (match e with SReply d id v b' => if Nat.eqb d c && (b' =? b) then [(id, v)] else [] | _ => [] end) = []).
    { intros [| |d id v b'| | | | |] I; try reflexivity. destruct (b' =? b) eqn:E; [|now rewrite andb_false_r]. apply Z.eqb_eq in E. apply (w_rep s W) in I as (X & _). lia. }
    induction (s_trace s) as [|e t IH]; [reflexivity|]. cbn. rewrite (H e (or_introl eq_refl)). apply IH. intros x I. apply H. now right.
  - unfold answered. assert (H : forall e, In e (s_trace s) -> (match e with SArrived d b' v => if Nat.eqb d c && (b' =? b) then [v] else [] | _ => [] end) = []).
    { intros [| | |d b' v| | | |] I; try reflexivity. destruct (b' =? b) eqn:E; [|now rewrite andb_false_r]. apply Z.eqb_eq in E. apply (w_arr s W) in I. lia. }
    induction (s_trace s) as [|e t IH]; [reflexivity|]. cbn. rewrite (H e (or_introl eq_refl)). apply IH. intros x I. apply H. now right.
Qed.
Section Told.
  Variable c : nat.
  Definition answers_own (s : sst) : Prop := forall b op id, In (SForward c b op id) (s_trace s) -> subseq (told c b (s_trace s)) (map (pair id) (answered c b (s_trace s))).
  (** While both peers stay: *)
  Definition tells (s : sst) : Prop :=
    (forall b op id, In (SForward c b op id) (s_trace s) -> Forall (writable id) (answered c b (s_trace s)) -> told c b (s_trace s) = map (pair id) (answered c b (s_trace s))) /\
    (sc_phase (s_conns s c) <> PhNew -> sc_conn (s_conns s c) = true /\ sc_open (s_conns s c) = true) /\
    (sc_phase (s_conns s c) <> PhDone -> l_wire (sc_link (s_conns s c)) = [] /\ sc_client (s_conns s c) = false).
  Lemma step_answers s e : wired s -> answers_own s -> answers_own (sstep s e) /\ (stays c e -> tells s -> tells (sstep s e)).
  Proof.
    intros W X. destruct (step_cases s e) as [s' ID|d id op s1 T NX QQ K OP|d x EE PH XX|d i v rid r s' I T NX QQ K R WR NO WD].
    - destruct ID as [_ (t & B & F) D SH CL SY PY NW DN].
      assert (E : forall b, told c b (s_trace s') = told c b (s_trace s) /\ answered c b (s_trace s') = answered c b (s_trace s)).
      { intros b. unfold told, answered. rewrite B. split; apply idle_flat; try exact F; intros [] Y; try contradiction Y; reflexivity. }
      assert (FI : forall b o j, In (SForward c b o j) (s_trace s') -> In (SForward c b o j) (s_trace s)).
      { intros b o j I. rewrite B in I. apply in_app_or in I as [I|I]; [exact I|]. rewrite Forall_forall in F. contradiction (F _ I). }
      split; [intros b o j I; destruct (E b) as (-> & ->); apply (X b o j); auto|]. intros ST (Y1 & Y2 & Y3). split; [|split].
      + intros b o j I. destruct (E b) as (-> & ->). apply (Y1 b o j). auto.
      + intros P. destruct (PY c ST P) as [(_ & P1 & P2)|(P0 & P1 & P2)]; [auto|]. rewrite P1, P2. auto.
      + intros P. destruct (SY c ST) as (S1 & S2). rewrite S1.
        destruct (Y3 (DN c P)) as (Z1 & Z2). split; [|exact Z2]. specialize (SH c). rewrite Z1 in SH. destruct SH as [-> | [-> | (k & ->)]]; reflexivity.
    - assert (E1 : forall b, told c b (s_trace s1) = told c b (s_trace s) /\ answered c b (s_trace s1) = answered c b (s_trace s)).
      { intros b. rewrite T, told_app, answered_app. cbn. now rewrite !app_nil_r. }
      assert (F1 : forall b o j, In (SForward c b o j) (s_trace s1) -> In (SForward c b o j) (s_trace s)).
      { intros b o j I. rewrite T in I. apply in_app_or in I as [I|[I|[]]]; [exact I|discriminate]. }
      destruct (K c) as ([K1 K2 K3 K4 K5 K6] & KL).
      destruct (when_connected_cases d id op s1) as [(CC & ->)|(CC & ->)].
      + destruct (client_queue_spec d id op s1) as (x & w & n & E & NN & Q2 & T2 & OO & M & _). cbn zeta in *. set (s2 := client_queue d id op s1) in *.
        assert (E2 : forall b, told c b (s_trace s2) = told c b (s_trace s) /\ answered c b (s_trace s2) = answered c b (s_trace s)).
        { intros b. destruct (E1 b) as (<- & <-). rewrite T2. split; apply quiet_app; destruct E; reflexivity. }
        assert (F2 : forall b o j, In (SForward c b o j) (s_trace s2) -> In (SForward c b o j) (s_trace s) \/ s_next s <= b).
        { intros b o j I. rewrite T2 in I. apply in_app_or in I as [I|[I|[]]]; [left; auto|]. destruct E; [discriminate|]. injection I as -> <- -> ->. right. lia. }
        split.
        * intros b o j I. destruct (E2 b) as (-> & ->). apply F2 in I as [I|I]; [exact (X b o j I)|]. destruct (none_told c b s W I) as (-> & _). constructor.
        * intros ST (Y1 & Y2 & Y3). split; [|split].
          -- intros b o j I. destruct (E2 b) as (-> & ->). apply F2 in I as [I|I]; [exact (Y1 b o j I)|]. destruct (none_told c b s W I) as (-> & ->). reflexivity.
          -- assert (GG : sc_phase (s_conns s2 c) = sc_phase (s_conns s c) /\ sc_conn (s_conns s2 c) = sc_conn (s_conns s c) /\ sc_open (s_conns s2 c) = sc_open (s_conns s c)).
             { destruct (Nat.eq_dec c d) as [CD|ND]; [rewrite CD in *; rewrite M; cbn; auto|rewrite (OO c ND); auto]. } destruct GG as (-> & -> & ->). exact Y2.
          -- destruct (Nat.eq_dec c d) as [CD|ND].
             ++ rewrite CD in *. rewrite M. cbn. rewrite K1. intros P. destruct (Y3 P) as (_ & Z). congruence.
             ++ rewrite (OO c ND), K1, K4, KL. exact Y3.
      + cbn [with_waiting]. split.
        * intros b o j I. cbn [with_waiting s_trace] in *. destruct (E1 b) as (-> & ->). apply (X b o j). now apply F1.
        * intros ST (Y1 & Y2 & Y3). unfold tells. cbn [with_waiting s_trace s_conns]. rewrite K1, K2, K3, K4, KL. split; [|auto]. intros b o j I. destruct (E1 b) as (-> & ->). apply (Y1 b o j). now apply F1.
    - assert (W1 : wired (with_sconn d x s)).
      { apply (wired_ext s); auto. intros d'. cbn. subst x. destruct (Nat.eq_dec d' d) as [->|ND]; [rewrite upd_same; right; now left|rewrite upd_other by exact ND; now left]. }
      assert (G : forall l s1 s2, s_waiting s1 = l -> wired s1 -> s2 = release l s1 -> forall b o j, In (SForward c b o j) (s_trace s2) -> In (SForward c b o j) (s_trace s1) \/ s_next s1 <= b).
      { clear. induction l as [|(d & (id & op)) l IH]; intros s1 s2 Q W -> b o j I; [now left|]. cbn [release] in I. set (s1' := with_waiting l s1) in *.
        assert (G : In (SGot d id op) (s_trace s1')) by (apply (w_got s1 W); rewrite Q; now left).
        assert (W1 : wired s1').
        { apply (silent_wired s1); [cbn; lia|exists []; split; [cbn; now rewrite app_nil_r|constructor]|intros k; now left| |exact W]. intros k i p H. left. rewrite Q. now right. }
        destruct (client_queue_spec d id op s1') as (x & w & n & E & NN & Q2 & T2 & OO & M & _). cbn zeta in *.
        destruct (IH (client_queue d id op s1') _ Q2 (client_queue_wired d id op s1' G W1) eq_refl b o j I) as [J|J].
        - rewrite T2 in J. apply in_app_or in J as [J|[J|[]]]; [now left|]. destruct E; [discriminate|]. injection J as _ <- _ _. right. cbn. lia.
        - right. rewrite NN in J. assert (s_next s1 <= n) by (destruct E; cbn in *; lia). lia. }
      specialize (G (s_waiting s) (with_sconn d x s) _ eq_refl W1 eq_refl). cbn [with_sconn s_trace s_next] in G.
      destruct (release_spec (s_waiting s) (with_sconn d x s) eq_refl W1) as (_ & Q2 & LE & GR & H). cbn zeta in *. destruct (H c) as (_ & E1 & E2 & _). cbn [with_sconn s_trace s_next] in *.
      set (s2 := release (s_waiting s) (with_sconn d x s)) in *. split.
      + intros b o j I. rewrite E1, E2. apply G in I as [I|I]; [exact (X b o j I)|]. destruct (none_told c b s W I) as (-> & _). constructor.
      + intros ST (Y1 & Y2 & Y3). split; [|split].
        * intros b o j I. rewrite E1, E2. apply G in I as [I|I]; [exact (Y1 b o j I)|]. destruct (none_told c b s W I) as (-> & ->). reflexivity.
        * rewrite (grown_phase _ _ (GR c)), (grown_conn _ _ (GR c)), (grown_open _ _ (GR c)). cbn [with_sconn s_conns]. destruct (Nat.eq_dec d c) as [->|ND].
          -- rewrite upd_same. subst x. cbn. intros _. apply Y2. congruence.
          -- rewrite (upd_other d x _ c (not_eq_sym ND)). exact Y2.
        * rewrite (grown_phase _ _ (GR c)). cbn [with_sconn s_conns]. destruct (Nat.eq_dec d c) as [->|ND].
          -- rewrite upd_same. subst x. cbn. congruence.
          -- rewrite (upd_other d x _ c (not_eq_sym ND)). intros P. destruct (Y3 P) as (Z1 & Z2). rewrite (grown_client _ _ (GR c)). cbn [with_sconn s_conns]. rewrite (upd_other d x _ c (not_eq_sym ND)).
             split; [|exact Z2].
             assert (L : forall l s1, s_waiting s1 = l -> wired s1 -> sc_client (s_conns s1 c) = false -> l_wire (sc_link (s_conns (release l s1) c)) = l_wire (sc_link (s_conns s1 c))).
             { clear. induction l as [|(d & (id & op)) l IH]; intros s1 Q W C; [reflexivity|]. cbn [release]. set (s1' := with_waiting l s1) in *.
               assert (G : In (SGot d id op) (s_trace s1')) by (apply (w_got s1 W); rewrite Q; now left).
               assert (W1 : wired s1').
               { apply (silent_wired s1); [cbn; lia|exists []; split; [cbn; now rewrite app_nil_r|constructor]|intros k; now left| |exact W]. intros k i p H. left. rewrite Q. now right. }
               assert (CQ : s_conns (client_queue d id op s1') c = s_conns s1 c).
               { destruct (client_queue_spec d id op s1') as (x & w & n & E & NN & Q2 & T2 & OO & M & _). cbn zeta in *. destruct (Nat.eq_dec c d) as [CD|ND]; [|exact (OO c ND)].
                 unfold client_queue. rewrite <- CD. change (s_conns s1' c) with (s_conns s1 c). rewrite C. reflexivity. }
               rewrite IH; [now rewrite CQ| |now apply client_queue_wired|now rewrite CQ].
               destruct (client_queue_spec d id op s1') as (x & w & n & E & NN & Q2 & _). exact Q2. }
             unfold s2. rewrite L; auto; cbn [with_sconn s_conns]; rewrite (upd_other d x _ c (not_eq_sym ND)); auto.
    - assert (FI : forall b o j, In (SForward c b o j) (s_trace s') -> In (SForward c b o j) (s_trace s)).
      { intros b o j J. rewrite T in J. apply in_app_or in J as [J|[J|J]]; [exact J|discriminate|]. destruct R as [-> | [-> | (ex & ->)]]; [contradiction| |]; destruct J as [J|[]]; discriminate. }
      assert (TE : forall b, told c b (s_trace s') = told c b (s_trace s) ++ told c b r) by (intros b; rewrite T, told_app; reflexivity).
      assert (AE : forall b, answered c b (s_trace s') = answered c b (s_trace s) ++ if Nat.eqb d c && (i =? b) then [v] else []).
      { intros b. rewrite T, answered_app. f_equal. destruct R as [-> | [-> | (ex & ->)]]; cbn; apply app_nil_r. }
      assert (RE : forall b o j, In (SForward c b o j) (s_trace s) -> subseq (told c b r) (map (pair j) (if Nat.eqb d c && (i =? b) then [v] else []))).
      { intros b o j J. destruct R as [-> | [-> | (ex & ->)]]; [constructor| |constructor]. cbn. rewrite app_nil_r. destruct (Nat.eqb d c && (i =? b)) eqn:E; [|constructor].
        apply andb_true_iff in E as (E1 & E2). apply Nat.eqb_eq in E1. apply Z.eqb_eq in E2. subst b. rewrite E1 in *. destruct (w_once s W _ _ _ _ _ _ I J) as (_ & ->). apply subseq_refl. }
      split.
      + intros b o j J. apply FI in J. rewrite TE, AE, map_app. apply subseq_app; [exact (X b o j J)|exact (RE b o j J)].
      + intros ST (Y1 & Y2 & Y3). destruct (K c) as [K1 K2 K3 K4 K5 K6]. split; [|split].
        * intros b o j J FA. apply FI in J. rewrite AE in FA. apply Forall_app in FA as (FA1 & FA2). rewrite TE, AE, map_app, (Y1 b o j J FA1). f_equal.
          destruct (Nat.eqb d c && (i =? b)) eqn:E.
          -- apply andb_true_iff in E as (E1 & E2). apply Nat.eqb_eq in E1. apply Z.eqb_eq in E2. rewrite E1, E2 in *. destruct (w_once s W _ _ _ _ _ _ I J) as (_ & ->).
             assert (P : sc_phase (s_conns s c) <> PhNew). { intros P. destruct Y3 as (Y3 & _); [congruence|]. rewrite Y3 in I. contradiction. }
             destruct (Y2 P) as (Z1 & Z2). rewrite (WR Z1 Z2 (Forall_inv FA2)). cbn. now rewrite Nat.eqb_refl, Z.eqb_refl.
          -- destruct R as [-> | [-> | (ex & ->)]]; [reflexivity| |reflexivity]. cbn. now rewrite E.
        * rewrite K1, K2, K3. exact Y2.
        * rewrite K1, K4. intros P. destruct (Y3 P) as (Z1 & Z2). split; [|exact Z2]. rewrite Z1 in K6. destruct K6 as [-> | [-> | (k & ->)]]; reflexivity.
  Qed.
  Lemma run_answers next es : let s := srun (s0 next) es in answers_own s /\ (Forall (stays c) es -> tells s).
  Proof.
    cbn zeta. assert (G : forall es' s, wired s -> answers_own s -> answers_own (srun s es') /\ (Forall (stays c) es' -> tells s -> tells (srun s es'))).
    { induction es' as [|e es' IH]; intros s W X; [split; auto|]. cbn [srun fold_left]. destruct (step_answers s e W X) as (X1 & X2). destruct (IH (sstep s e) (step_wired s e W) X1) as (Y1 & Y2).
      split; [exact Y1|]. intros F T. apply Y2; [exact (Forall_inv_tail F)|]. apply X2; [exact (Forall_inv F)|exact T]. }
    destruct (G es (s0 next) (wired0 next)) as (G1 & G2).
    - intros b op id [].
    - split; [exact G1|]. intros F. apply G2; [exact F|]. split; [intros b op id []|]. split; [cbn; congruence|]. intros _. split; reflexivity.
  Qed.
End Told.

(** *** Nothing after the response that ends an operation *)
Section Ends.
  Variables (c : nat) (b : Z).
  Definition ended (s : sst) : Prop := forall l id v r, told c b (s_trace s) = l ++ (id, v) :: r -> ends v -> r = [] /\ ~ In b (map fst (l_wire (sc_link (s_conns s c)))) /\ b < s_next s.
  Lemma ends_last v : ends v -> last_response v = true.
  Proof. destruct v as [| | | | | | | | | | |k| | | | | | | | | |]; cbn; try contradiction. now destruct k. Qed.
  Lemma shrinks_key w w' k : shrinks w w' -> In k (map fst w') -> In k (map fst w).
  Proof. intros S I. apply in_map_iff in I as (x & E & I). apply in_map_iff. exists x. split; [exact E|exact (shrinks_in _ _ _ S I)]. Qed.
  Lemma queue_ended d id op s : ended s -> ended (client_queue d id op s).
  Proof.
    intros X l j v r E EN. destruct (client_queue_spec d id op s) as (x & w & n & EV & NN & Q2 & T2 & OO & M & _). cbn zeta in *. set (s2 := client_queue d id op s) in *.
    assert (T : told c b (s_trace s2) = told c b (s_trace s)) by (rewrite T2; apply quiet_app; destruct EV; reflexivity). rewrite T in E. destruct (X l j v r E EN) as (Y1 & Y2 & Y3).
    split; [exact Y1|]. assert (LE : s_next s <= n) by (destruct EV; lia). split; [|lia]. destruct (Nat.eq_dec c d) as [CD|ND]; [|rewrite (OO c ND); exact Y2].
    rewrite CD in *. rewrite M. cbn. rewrite map_app. intros I. apply in_app_or in I as [I|I]; [contradiction|]. assert (WE : map fst w = [] \/ map fst w = [s_next s]) by (destruct EV as [e n w L [Z|(Z & L2)]|w [Z|Z]]; subst w; auto).
    destruct WE as [W|W]; rewrite W in I; [contradiction|]. destruct I as [I|[]]. lia.
  Qed.
  Lemma rev_case {A} (l : list A) : l = [] \/ exists r y, l = r ++ [y].
  Proof. destruct l as [|x l _] using rev_ind; [now left|right; eauto]. Qed.
  Lemma step_ended s e : wired s -> ended s -> ended (sstep s e).
  Proof.
    intros W X. destruct (step_cases s e) as [s' ID|d id op s1 T NX QQ K OP|d x EE PH XX|d i v rid r s' I T NX QQ K R WR NO WD].
    - destruct ID as [L (t & B & F) D SH CL SY PY NW DN]. intros l j v r E EN.
      assert (TE : told c b (s_trace s') = told c b (s_trace s)) by (unfold told; rewrite B; apply idle_flat; [intros [] Y; try contradiction Y; reflexivity|exact F]).
      rewrite TE in E. destruct (X l j v r E EN) as (Y1 & Y2 & Y3). split; [exact Y1|]. split; [|lia]. intros I. apply Y2. exact (shrinks_key _ _ _ (SH c) I).
    - assert (X1 : ended s1).
      { intros l j v r E EN. rewrite T, told_app in E. cbn in E. rewrite app_nil_r in E. rewrite NX, (proj2 (K c)). exact (X l j v r E EN). }
      destruct (when_connected_cases d id op s1) as [(CC & ->)|(CC & ->)]; [now apply queue_ended|exact X1].
    - assert (X1 : ended (with_sconn d x s)).
      { intros l j v r E EN. cbn [with_sconn s_trace s_next s_conns] in *. destruct (X l j v r E EN) as (Y1 & Y2 & Y3). split; [exact Y1|]. split; [|exact Y3]. subst x. destruct (Nat.eq_dec c d) as [CD|ND]; [|now rewrite (upd_other d _ _ c ND)].
        rewrite CD, upd_same. cbn. auto. }
      clear EE PH XX X. revert X1. generalize (with_sconn d x s). generalize (s_waiting s). induction l as [|(k & (id & op)) l IH]; intros s1 X1; [exact X1|]. cbn [release]. apply IH. apply queue_ended. exact X1.
    - intros l j u r' E EN. assert (SH : shrinks (l_wire (sc_link (s_conns s c))) (l_wire (sc_link (s_conns s' c)))) by (apply (K c)).
      assert (OLD : told c b (s_trace s') = told c b (s_trace s) -> r' = [] /\ ~ In b (map fst (l_wire (sc_link (s_conns s' c)))) /\ b < s_next s').
      { intros TE. rewrite TE in E. destruct (X l j u r' E EN) as (Y1 & Y2 & Y3). split; [exact Y1|]. split; [|lia]. intros J. apply Y2. exact (shrinks_key _ _ _ SH J). }
      assert (TE : told c b (s_trace s') = told c b (s_trace s) ++ told c b r) by (rewrite T, told_app; reflexivity).
      destruct R as [-> | [-> | (ex & ->)]]; [apply OLD; rewrite TE; apply app_nil_r| |apply OLD; rewrite TE; apply app_nil_r].
      destruct (Nat.eqb d c && (i =? b)) eqn:DB; [|apply OLD; rewrite TE; cbn; rewrite DB; apply app_nil_r].
      apply andb_true_iff in DB as (E1 & E2). apply Nat.eqb_eq in E1. apply Z.eqb_eq in E2. rewrite E1, E2 in *.
      rewrite TE in E. cbn in E. rewrite Nat.eqb_refl, Z.eqb_refl in E. cbn in E.
      destruct (rev_case r') as [-> | (r0 & y & ->)].
      + apply app_inj_tail in E as (E & EQ). injection EQ as <- <-. split; [reflexivity|]. rewrite (WD eq_refl (ends_last _ EN)). split.
        * intros J. apply in_map_iff in J as ((k & z) & EK & J). apply filter_In in J as (_ & J). cbn in *. rewrite EK, Z.eqb_refl in J. discriminate.
        * rewrite NX. exact (w_wire s W _ _ _ I).
      + exfalso. change (l ++ (j, u) :: r0 ++ [y]) with (l ++ ((j, u) :: r0) ++ [y]) in E. rewrite app_assoc in E. apply app_inj_tail in E as (E & _). destruct (X l j u r0 E EN) as (_ & Y2 & _). apply Y2. apply in_map_iff. exists (b, rid). split; [reflexivity|exact I].
  Qed.
  Lemma run_ended next es : ended (srun (s0 next) es).
  Proof.
    unfold srun. assert (G : wired (s0 next) /\ ended (s0 next)) by (split; [apply wired0|]; intros [|? l] id v r E; discriminate E).
    revert G. generalize (s0 next). induction es as [|e es IH]; intros s (W & O); [exact O|]. cbn [fold_left]. apply IH. split; [now apply step_wired|now apply step_ended].
  Qed.
End Ends.
