(** The merging server: proofs. *)
From Verif Require Import Base BaseFacts BerModel LdapModel ServerModel ServerSpec ClientModel ProxyModel ProxySpec ProxyProofs ProxyOrder MergerModel MergerSpec.

Lemma key_eqb_eq a b : key_eqb a b = true <-> a = b.
Proof.
  destruct a as [|x|x], b as [|y|y]; cbn; try (split; congruence).
  - rewrite Z.eqb_eq. split; congruence.
  - rewrite bytes_eqb_eq. split; congruence.
Qed.
Lemma of_same {A} id (l : list A) : of id id l = l. Proof. unfold of. destruct (pv_dec id id); congruence. Qed.
Lemma of_other {A} i id (l : list A) : i <> id -> of i id l = []. Proof. unfold of. destruct (pv_dec i id); congruence. Qed.

(** What does not change while requests are passed on *)
Record kept (s s' : mst) : Prop := {
  kp_conn : m_conn s' = m_conn s; kp_tried : m_tried s' = m_tried s; kp_clients : m_clients s' = m_clients s; kp_all : m_all s' = m_all s;
  kp_map : m_map s' = m_map s; kp_waiting : m_waiting s' = m_waiting s; kp_unbound : m_unbound s' = m_unbound s; kp_next : m_next s <= m_next s' }.
Lemma kept_refl s : kept s s. Proof. split; auto. lia. Qed.
Lemma kept_trans s t u : kept s t -> kept t u -> kept s u.
Proof. intros [] []. split; try congruence. lia. Qed.
Lemma kept_emit e s : kept s (memit e s). Proof. split; auto. cbn. lia. Qed.

(** One more thing registered under a new id, at most *)
Definition one_more (id : pv) (lo hi : Z) (l l' : link pv) : Prop := l' = l \/ exists b, l' = mkLink (l_up l) (l_wire l ++ [(b, id)]) /\ lo <= b < hi.
Definition passing (j : nat) (id : pv) (op : obj) (e : mev) : Prop := match e with MForward k _ o i => k = j /\ o = op /\ i = id | MRaised _ => True | _ => False end.

Lemma queue_one_spec j id op s : let s' := fst (queue_one j id op s) in
  kept s s' /\ (forall k, k <> j -> m_links s' k = m_links s k) /\ one_more id (m_next s) (m_next s') (m_links s j) (m_links s' j) /\
  exists o, m_trace s' = m_trace s ++ o /\ (o = [] \/ o = [MForward j (m_next s) op id]) /\
    (forall N, l_up (m_links s j) = true -> (forall b i, In (b, i) (l_wire (m_links s j)) -> b < m_next s) -> 0 <= m_next s -> m_next s' <= N -> encodable N op ->
       snd (queue_one j id op s) = Ok tt /\ o = [MForward j (m_next s) op id] /\ m_next s' = m_next s + 1).
Proof.
  cbn zeta. unfold queue_one.
  assert (NW : (forall b i, In (b, i) (l_wire (m_links s j)) -> b < m_next s) -> wire_has (m_next s) (l_wire (m_links s j)) = false).
  { intros W. unfold wire_has. apply not_true_iff_false. intros X. apply existsb_exists in X as ((b & i) & I & E). apply Z.eqb_eq in E. cbn in E. pose proof (W b i I). lia. }
  assert (EN : forall N, 0 <= m_next s -> m_next s + 1 <= N -> encodable N op -> exists w, toWire (OMessage (class_tag KSeq) (VInt (m_next s)) op None) = Ok w).
  { intros N L0 L1 EN. apply EN. lia. }
  destruct (needs_answer op) eqn:NA.
  - unfold send_multi. rewrite NA. cbn [negb]. destruct (l_up (m_links s j)) eqn:U.
    + remember (wire_has (m_next s) (l_wire (m_links s j))) as h eqn:H. destruct h.
      * cbn [fst snd]. split; [split; auto; cbn; lia|]. split; [intros k NE; cbn; apply Nat.eqb_neq in NE; now rewrite NE|]. split; [left; cbn; now rewrite Nat.eqb_refl|].
        exists []. split; [symmetry; apply app_nil_r|]. split; [auto|]. intros N _ W. discriminate (NW W).
      * remember (toWire (OMessage (class_tag KSeq) (VInt (m_next s)) op None)) as tw eqn:TW. destruct tw as [w|e].
        -- cbn [fst snd]. split; [split; auto; cbn; lia|]. split; [intros k NE; cbn; apply Nat.eqb_neq in NE; now rewrite NE|]. split; [right; exists (m_next s); cbn; rewrite Nat.eqb_refl, U; split; [reflexivity|lia]|].
           exists [MForward j (m_next s) op id]. split; [reflexivity|]. split; [auto|]. intros N _ W L0 L1 E. split; [reflexivity|]. split; reflexivity.
        -- cbn [fst snd]. split; [split; auto; cbn; lia|]. split; [intros k NE; cbn; apply Nat.eqb_neq in NE; now rewrite NE|]. split; [right; exists (m_next s); cbn; rewrite Nat.eqb_refl, U; split; [reflexivity|lia]|].
           exists []. split; [symmetry; apply app_nil_r|]. split; [auto|]. intros N _ W L0 L1 E. destruct (EN N L0 L1 E) as (w & X). congruence.
    + cbn [fst snd]. split; [split; auto; cbn; lia|]. split; [intros k NE; cbn; apply Nat.eqb_neq in NE; now rewrite NE|]. split; [left; cbn; now rewrite Nat.eqb_refl|].
      exists []. split; [symmetry; apply app_nil_r|]. split; [auto|]. intros N X. discriminate X.
  - unfold send_none. rewrite NA. destruct (l_up (m_links s j)) eqn:U.
    + remember (wire_has (m_next s) (l_wire (m_links s j))) as h eqn:H. destruct h.
      * cbn [fst snd]. split; [split; auto; cbn; lia|]. split; [auto|]. split; [left; reflexivity|]. exists []. split; [symmetry; apply app_nil_r|]. split; [auto|]. intros N _ W. discriminate (NW W).
      * remember (toWire (OMessage (class_tag KSeq) (VInt (m_next s)) op None)) as tw eqn:TW. destruct tw as [w|e].
        -- cbn [fst snd]. split; [split; auto; cbn; lia|]. split; [auto|]. split; [left; reflexivity|]. exists [MForward j (m_next s) op id]. split; [reflexivity|]. split; [auto|]. intros N _ W L0 L1 E. split; [reflexivity|]. split; reflexivity.
        -- cbn [fst snd]. split; [split; auto; cbn; lia|]. split; [auto|]. split; [left; reflexivity|]. exists []. split; [symmetry; apply app_nil_r|]. split; [auto|]. intros N _ W L0 L1 E. destruct (EN N L0 L1 E) as (w & X). congruence.
    + cbn [fst snd]. split; [split; auto; cbn; lia|]. split; [auto|]. split; [left; reflexivity|]. exists []. split; [symmetry; apply app_nil_r|]. split; [auto|]. intros N X. discriminate X.
Qed.

Definition wires_new (s : mst) : Prop := forall k b i, In (b, i) (l_wire (m_links s k)) -> b < m_next s.
Lemma one_more_up id lo hi l l' : one_more id lo hi l l' -> l_up l' = l_up l.
Proof. intros [-> | (b & -> & _)]; reflexivity. Qed.

Lemma sent_to_app j t u : sent_to j (t ++ u) = sent_to j t ++ sent_to j u. Proof. apply flat_map_app. Qed.

Lemma queue_all_spec id op js : forall s, NoDup js -> wires_new s -> let s' := queue_all js id op s in
  kept s s' /\ wires_new s' /\ (forall k, one_more id (m_next s) (m_next s') (m_links s k) (m_links s' k)) /\ (forall k, ~ In k js -> m_links s' k = m_links s k) /\
  exists o, m_trace s' = m_trace s ++ o /\ Forall (fun e => exists j, In j js /\ passing j id op e) o /\
    (forall N, Forall (fun j => l_up (m_links s j) = true) js -> 0 <= m_next s -> m_next s' <= N -> encodable N op ->
       forall j, sent_to j o = if in_dec Nat.eq_dec j js then [(id, op)] else []).
Proof.
  induction js as [|j js IH]; intros s ND W; cbn zeta.
  - cbn [queue_all]. split; [apply kept_refl|]. split; [exact W|]. split; [intros k; now left|]. split; [auto|]. exists []. split; [symmetry; apply app_nil_r|]. split; [constructor|]. reflexivity.
  - apply NoDup_cons_iff in ND as (NI & ND). cbn [queue_all]. destruct (queue_one_spec j id op s) as (K & OT & OM & o & T & O & X). cbn zeta in *.
    destruct (queue_one j id op s) as (s1 & r1). cbn [fst snd] in *.
    assert (W1 : wires_new s1).
    { intros k b i I. pose proof (kp_next _ _ K). destruct (Nat.eq_dec k j) as [->|NE]; [|rewrite (OT k NE) in I; pose proof (W _ _ _ I); lia].
      destruct OM as [E|(b' & E & L)]; rewrite E in I; [pose proof (W _ _ _ I); lia|]. cbn in I. apply in_app_or in I as [I|[I|[]]]; [pose proof (W _ _ _ I); lia|]. injection I as <- <-. lia. }
    assert (OM1 : forall k, one_more id (m_next s) (m_next s1) (m_links s k) (m_links s1 k)).
    { intros k. destruct (Nat.eq_dec k j) as [->|NE]; [exact OM|left; now apply OT]. }
    assert (FO : Forall (fun e => exists j', In j' (j :: js) /\ passing j' id op e) o).
    { destruct O as [-> | ->]; [constructor|]. constructor; [|constructor]. exists j. split; [now left|]. cbn. auto. }
    destruct r1 as [u|e].
    + destruct (IH s1 ND W1) as (K2 & W2 & OM2 & OT2 & o2 & T2 & F2 & X2). cbn zeta in *. set (s2 := queue_all js id op s1) in *.
      pose proof (kp_next _ _ K). pose proof (kp_next _ _ K2).
      split; [exact (kept_trans _ _ _ K K2)|]. split; [exact W2|]. split.
      { intros k. destruct (Nat.eq_dec k j) as [->|NE].
        - rewrite (OT2 j NI). destruct OM as [E|(b' & E & L)]; [now left|right; exists b'; split; [exact E|lia]].
        - destruct (OM2 k) as [E|(b' & E & L)]; rewrite (OT k NE) in E; [now left|right; exists b'; split; [exact E|lia]]. }
      split. { intros k NK. rewrite OT2; [apply OT|]; intros Y; apply NK; [now left|now right]. }
      exists (o ++ o2). split; [rewrite T2, T; now rewrite app_assoc|]. split.
      { apply Forall_app. split; [exact FO|]. eapply Forall_impl; [|exact F2]. intros x (j' & I & P). exists j'. split; [now right|exact P]. }
      intros N UP L0 LN EN j'. rewrite sent_to_app. inversion UP as [|? ? UJ UR]. subst. destruct (X N UJ) as (_ & -> & EQ); auto; [intros b i I; exact (W _ _ _ I)|lia|].
      rewrite (X2 N); [|eapply Forall_impl; [|exact UR]|lia|lia|exact EN].
      2:{ cbn. intros k Y. rewrite (one_more_up _ _ _ _ _ (OM1 k)). exact Y. }
      replace (sent_to j' [MForward j (m_next s) op id]) with (if Nat.eqb j j' then [(id, op)] else []) by (cbn; destruct (Nat.eqb j j'); reflexivity).
      destruct (Nat.eqb j j') eqn:JJ.
      * apply Nat.eqb_eq in JJ. subst j'. destruct (in_dec Nat.eq_dec j js); [contradiction|]. destruct (in_dec Nat.eq_dec j (j :: js)) as [_|NJ]; [reflexivity|exfalso; apply NJ; now left].
      * apply Nat.eqb_neq in JJ. destruct (in_dec Nat.eq_dec j' js) as [Y|Y]; destruct (in_dec Nat.eq_dec j' (j :: js)) as [Z|Z]; try reflexivity; exfalso; [apply Z; now right|destruct Z as [Z|Z]; contradiction].
    + split; [exact (kept_trans _ _ _ K (kept_emit _ _))|]. split; [exact W1|]. split; [exact OM1|]. split; [intros k NK; apply OT; intros Y; apply NK; now left|].
      exists (o ++ [MRaised e]). split; [cbn; rewrite T; now rewrite app_assoc|]. split; [apply Forall_app; split; [exact FO|]; constructor; [|constructor]; exists j; split; [now left|exact I]|].
      intros N UP L0 LN EN. exfalso. inversion UP as [|? ? UJ UR]. subst. destruct (X N UJ) as (Y & _); auto; [intros b i I; exact (W _ _ _ I)|discriminate].
Qed.

(** ** What is counted *)
Definition quiet (e : mev) : Prop := match e with MGot _ _ | MArrived _ _ _ _ | MReply _ _ => False | _ => True end.
Definition silent (e : mev) : Prop := match e with MArrived _ _ _ _ | MReply _ _ | MForward _ _ _ _ => False | _ => True end.
Lemma flat_map_nil {A C} (f : A -> list C) l : Forall (fun x => f x = []) l -> flat_map f l = [].
Proof. induction 1 as [|x l E F IH]; [reflexivity|]. cbn. now rewrite E, IH. Qed.
Ltac nothing := apply flat_map_nil; match goal with F : Forall _ ?o |- Forall _ ?o => eapply Forall_impl; [|exact F] end; intros [] Y; cbn in *; try contradiction; reflexivity.
Lemma finals_quiet id o : Forall quiet o -> finals id o = []. Proof. intros F. unfold finals. nothing. Qed.
Lemma finals_from_quiet j id o : Forall quiet o -> finals_from j id o = []. Proof. intros F. unfold finals_from. nothing. Qed.
Lemma outs_quiet id o : Forall quiet o -> outs id o = []. Proof. intros F. unfold outs. nothing. Qed.
Lemma entries_in_quiet id o : Forall quiet o -> entries_in id o = []. Proof. intros F. unfold entries_in. nothing. Qed.
Lemma entries_out_quiet id o : Forall quiet o -> entries_out id o = []. Proof. intros F. unfold entries_out. nothing. Qed.
Lemma uses_quiet id o : Forall quiet o -> uses id o = 0%nat.
Proof. intros F. unfold uses. rewrite flat_map_nil; [reflexivity|]. eapply Forall_impl; [|exact F]. intros [] Y; cbn in *; try contradiction; reflexivity. Qed.
Lemma wanted_quiet o : Forall quiet o -> wanted o = []. Proof. intros F. unfold wanted. nothing. Qed.
Lemma finals_app id t u : finals id (t ++ u) = finals id t ++ finals id u. Proof. apply flat_map_app. Qed.
Lemma finals_from_app j id t u : finals_from j id (t ++ u) = finals_from j id t ++ finals_from j id u. Proof. apply flat_map_app. Qed.
Lemma outs_app id t u : outs id (t ++ u) = outs id t ++ outs id u. Proof. apply flat_map_app. Qed.
Lemma entries_in_app id t u : entries_in id (t ++ u) = entries_in id t ++ entries_in id u. Proof. apply flat_map_app. Qed.
Lemma entries_out_app id t u : entries_out id (t ++ u) = entries_out id t ++ entries_out id u. Proof. apply flat_map_app. Qed.
Lemma uses_app id t u : uses id (t ++ u) = (uses id t + uses id u)%nat. Proof. unfold uses. now rewrite flat_map_app, app_length. Qed.
Lemma wanted_app t u : wanted (t ++ u) = wanted t ++ wanted u. Proof. apply flat_map_app. Qed.

Definition slots (id : pv) (l : list (Z * pv)) : nat := length (flat_map (fun x => of (snd x) id [tt]) l).
Definition held (id : pv) (l : list (pv * obj)) : nat := length (flat_map (fun x => of (fst x) id [tt]) l).
Lemma slots_app id l l' : slots id (l ++ l') = (slots id l + slots id l')%nat. Proof. unfold slots. now rewrite flat_map_app, app_length. Qed.
Lemma held_app id l l' : held id (l ++ l') = (held id l + held id l')%nat. Proof. unfold held. now rewrite flat_map_app, app_length. Qed.
Lemma slots_cons id x l : slots id (x :: l) = (slots id [x] + slots id l)%nat. Proof. exact (slots_app id [x] l). Qed.
Lemma held_cons id x l : held id (x :: l) = (held id [x] + held id l)%nat. Proof. exact (held_app id [x] l). Qed.
Lemma slots_del_le id i l : (slots id (wire_del i l) <= slots id l)%nat.
Proof. induction l as [|(b & k) l IH]; [apply le_n|]. cbn [wire_del List.filter fst]. fold (wire_del i l). rewrite (slots_cons id (b, k) l). destruct (negb (b =? i)); [rewrite slots_cons|]; lia. Qed.
Lemma slots_del id i b l : find (fun x => fst x =? i) l = Some (b, id) -> (S (slots id (wire_del i l)) <= slots id l)%nat.
Proof.
  induction l as [|(b' & k) l IH]; [discriminate|]. cbn [find wire_del List.filter fst]. fold (wire_del i l). rewrite (slots_cons id (b', k) l). destruct (b' =? i); cbn [negb].
  - intros E. injection E as -> ->. pose proof (slots_del_le id i l). replace (slots id [(b, id)]) with 1%nat; [lia|]. unfold slots. cbn. now rewrite of_same.
  - intros E. rewrite slots_cons. pose proof (IH E). lia.
Qed.

Lemma passing_quiet id op js o : Forall (fun e => exists j, In j js /\ passing j id op e) o -> Forall quiet o.
Proof. apply Forall_impl. intros e (j & _ & P). destruct e; cbn in *; tauto. Qed.
Lemma one_more_slots id' id lo hi l l' : one_more id lo hi l l' -> (slots id' (l_wire l') <= slots id' (l_wire l) + length (of id id' [tt]))%nat.
Proof. intros [-> | (b & -> & _)]; [lia|]. cbn [l_wire]. rewrite slots_app. unfold slots at 2. cbn [flat_map snd]. rewrite app_nil_r. lia. Qed.

(** The waiting requests are passed on. *)
Lemma release_spec : forall l s, NoDup (m_clients s) -> wires_new s -> let s' := m_release l s in
  (m_conn s' = m_conn s /\ m_tried s' = m_tried s /\ m_clients s' = m_clients s /\ m_all s' = m_all s /\ m_map s' = m_map s /\ m_unbound s' = m_unbound s /\ m_next s <= m_next s' /\
   m_waiting s' = (if l then m_waiting s else [])) /\ wires_new s' /\
  (forall k, l_up (m_links s' k) = l_up (m_links s k)) /\ (forall k, ~ In k (m_clients s) -> m_links s' k = m_links s k) /\
  (forall k id, (slots id (l_wire (m_links s' k)) <= slots id (l_wire (m_links s k)) + held id l)%nat) /\
  exists o, m_trace s' = m_trace s ++ o /\ Forall quiet o /\
    (forall N, Forall (fun j => l_up (m_links s j) = true) (m_clients s) -> 0 <= m_next s -> m_next s' <= N -> Forall (fun r => encodable N (snd r)) l ->
       forall j, sent_to j o = if in_dec Nat.eq_dec j (m_clients s) then l else []).
Proof.
  induction l as [|(id & op) l IH]; intros s ND W; cbn zeta.
  - cbn [m_release]. split; [repeat split; lia|]. split; [exact W|]. split; [auto|]. split; [auto|]. split; [intros; lia|]. exists []. split; [symmetry; apply app_nil_r|]. split; [constructor|].
    intros N _ _ _ _ j. destruct (in_dec Nat.eq_dec j (m_clients s)); reflexivity.
  - cbn [m_release]. set (s1 := mw_waiting l s). destruct (queue_all_spec id op (m_clients s) s1 ND W) as (K & W1 & OM & OT & o & T & F & X). cbn zeta in *.
    set (s2 := queue_all (m_clients s) id op s1) in *. destruct K. cbn [s1 mw_waiting m_conn m_tried m_clients m_all m_map m_waiting m_unbound m_next m_links m_trace] in *.
    assert (ND2 : NoDup (m_clients s2)) by (now rewrite kp_clients0).
    destruct (IH s2 ND2 W1) as ((A1 & A2 & A3 & A4 & A5 & A6 & A7 & A8) & W2 & UP & OT2 & SL & o2 & T2 & Q2 & X2). cbn zeta in *. set (s3 := m_release l s2) in *.
    split; [repeat split; try congruence; [lia|destruct l; congruence]|]. split; [exact W2|].
    split. { intros k. rewrite UP. exact (one_more_up _ _ _ _ _ (OM k)). }
    split. { intros k NK. rewrite OT2; [now apply OT|]. now rewrite kp_clients0. }
    split. { intros k id'. pose proof (SL k id'). pose proof (one_more_slots id' _ _ _ _ _ (OM k)). rewrite held_cons. unfold held at 1. cbn [flat_map fst]. rewrite app_nil_r. lia. }
    exists (o ++ o2). split; [rewrite T2, T; now rewrite app_assoc|]. split; [apply Forall_app; split; [exact (passing_quiet _ _ _ _ F)|exact Q2]|].
    intros N UPS L0 LN EN j. apply Forall_cons_iff in EN as (E1 & E2). cbn [snd] in E1. rewrite sent_to_app, (X N UPS L0); [|lia|exact E1].
    rewrite (X2 N); [|rewrite kp_clients0|lia|lia|exact E2].
    + rewrite kp_clients0. destruct (in_dec Nat.eq_dec j (m_clients s)); reflexivity.
    + eapply Forall_impl; [|exact UPS]. intros k Y. rewrite (one_more_up _ _ _ _ _ (OM k)). exact Y.
Qed.

(** ** The dictionary and the response that is picked *)
Lemma map_get_del id id' m : map_get id' (map_del id m) = if pv_dec id id' then None else map_get id' m.
Proof.
  induction m as [|(k & q) m IH]; [cbn; destruct (pv_dec id id'); reflexivity|]. cbn [map_del List.filter fst]. fold (map_del id m). cbn [map_get].
  destruct (key_eqb k id) eqn:E; cbn [negb].
  - apply key_eqb_eq in E. subst k. rewrite IH. destruct (pv_dec id id') as [->|NE]; [reflexivity|]. destruct (key_eqb id id') eqn:E; [apply key_eqb_eq in E; contradiction|reflexivity].
  - cbn [map_get]. rewrite IH. destruct (key_eqb k id') eqn:E2; [|reflexivity]. apply key_eqb_eq in E2. subst k. destruct (pv_dec id id') as [->|NE]; [|reflexivity].
    rewrite (proj2 (key_eqb_eq id' id') eq_refl) in E. discriminate.
Qed.
Lemma map_get_set id id' q m : map_get id' (map_set id q m) = if pv_dec id id' then Some q else map_get id' m.
Proof.
  unfold map_set. cbn [map_get]. rewrite map_get_del. destruct (key_eqb id id') eqn:E.
  - apply key_eqb_eq in E. destruct (pv_dec id id'); [reflexivity|contradiction].
  - destruct (pv_dec id id') as [->|NE]; [|reflexivity]. rewrite (proj2 (key_eqb_eq id' id') eq_refl) in E. discriminate.
Qed.
Lemma m_success_iff v : m_success v = true <-> succeeded v.
Proof.
  split.
  - destruct v; try discriminate. cbn. match goal with |- context [match ?x with VNone => _ | VInt _ => _ | VBytes _ => _ end] => destruct x as [|z|b] end; try discriminate. intros E. apply Z.eqb_eq in E. subst z. repeat eexists.
  - intros (k & tag & dn & msg & cr & ->). reflexivity.
Qed.
Lemma pick_spec l : forall v, In (pick l v) (v :: l) /\ (succeeded (pick l v) <-> succeeded v \/ Exists succeeded l).
Proof.
  induction l as [|r l IH]; intros v; cbn [pick].
  - split; [now left|]. split; [auto|]. intros [H|H]; [exact H|inversion H].
  - destruct (IH (if m_success r then r else v)) as (I & X). split.
    + destruct I as [E|I]; [|right; now right]. rewrite <- E. destruct (m_success r); [right; now left|now left].
    + rewrite X, Exists_cons. destruct (m_success r) eqn:M.
      * apply m_success_iff in M. tauto.
      * assert (~ succeeded r) by (rewrite <- m_success_iff; congruence). tauto.
Qed.
Lemma pick_stands l v : In v l -> stands_for l (pick l v).
Proof.
  intros I. destruct (pick_spec l v) as (P & X). split; [destruct P as [<- | P]; assumption|]. rewrite X. split; [|auto].
  intros [S|S]; [|exact S]. apply Exists_exists. eauto.
Qed.
Lemma merged_kind_eq op : merged_kind op = match kind_of op with Some (RBind | RSearch | RCompare | RAbandon | RUnbind) => true | _ => false end.
Proof. destruct op; try reflexivity; destruct k; reflexivity. Qed.
Lemma fin_last v : last_response v = fin v. Proof. reflexivity. Qed.
Lemma in_finals id t v : In v (finals id t) <-> fin v = true /\ exists j b, In (MArrived j b id v) t.
Proof.
  unfold finals. rewrite in_flat_map. split.
  - intros (e & I & X). destruct e; try contradiction. unfold of in X. destruct (pv_dec id0 id) as [->|]; [|contradiction]. destruct (fin v0) eqn:F; [|contradiction]. destruct X as [-> | []]. split; [exact F|eauto].
  - intros (F & j & b & I). exists (MArrived j b id v). split; [exact I|]. rewrite of_same, F. now left.
Qed.

(** ** While the client stays *)
Section Stays.
  Variable configs tls : nat.
  Record good (s : mst) : Prop := {
    g_conn : m_conn s <> Some false;
    g_nodup : NoDup (m_clients s);
    g_tried : forall j, In j (m_clients s) -> In j (m_tried s) /\ (j < configs)%nat;
    g_all : m_all s = true -> length (m_clients s) = configs /\ m_conn s = Some true;
    g_wire : forall j b i, In (b, i) (l_wire (m_links s j)) -> m_all s = true /\ In j (m_clients s);
    g_new : wires_new s }.
  (** The responses so far: answered [configs] at a time, the rest is in the dictionary *)
  Definition merging (id : pv) (s : mst) : Prop := exists d q, finals id (m_trace s) = d ++ q /\ chunks configs d (outs id (m_trace s)) /\
    match map_get id (m_map s) with None => q = [] | Some (n, l) => n = configs /\ l = q /\ q <> [] /\ (length q < configs)%nat end.
  Definition counted (id : pv) (s : mst) : Prop := forall j,
    (slots id (l_wire (m_links s j)) + length (finals_from j id (m_trace s)) + held id (m_waiting s) <= uses id (m_trace s))%nat.
  Definition arrived_from (s : mst) : Prop := forall j b id v, In (MArrived j b id v) (m_trace s) -> (j < configs)%nat.
  Record inv (s : mst) : Prop := {
    i_good : good s;
    i_from : arrived_from s;
    i_merge : all_written (m_trace s) -> forall id, merging id s /\ entries_out id (m_trace s) = entries_in id (m_trace s) /\ counted id s }.

  Lemma written_before t o : all_written (t ++ o) -> all_written t.
  Proof. intros A j b id v I. apply (A j b id v). apply in_or_app. now left. Qed.
  Lemma tries_new s j : tries configs tls s j = true -> ~ In j (m_tried s) /\ (j < configs)%nat /\ m_conn s <> None.
  Proof.
    unfold tries. destruct (m_conn s); [|discriminate]. intros E. apply andb_true_iff in E as (E1 & E2). apply Nat.ltb_lt in E1. apply negb_true_iff in E2. split; [|split; [lia|discriminate]].
    intros I. apply not_true_iff_false in E2. apply E2. apply existsb_exists. exists j. split; [exact I|apply Nat.eqb_refl].
  Qed.
  (** All are connected, so no further one is tried. *)
  Lemma all_tried s j : good s -> m_all s = true -> tries configs tls s j = false.
  Proof.
    intros G A. destruct (tries configs tls s j) eqn:T; [|reflexivity]. exfalso. destruct (tries_new _ _ T) as (NT & LT & _). destruct (g_all _ G A) as (L & _).
    assert (ND : NoDup (j :: m_clients s)). { constructor; [|apply (g_nodup _ G)]. intros I. apply NT. exact (proj1 (g_tried _ G _ I)). }
    assert (IN : incl (j :: m_clients s) (seq 0 configs)). { intros k [<- | I]; apply in_seq; [lia|]. pose proof (g_tried _ G _ I). lia. }
    pose proof (NoDup_incl_length ND IN) as X. cbn in X. rewrite seq_length in X. lia.
  Qed.

  (** Only events that say nothing about the requests *)
  Lemma merging_same id s s' o : merging id s -> m_map s' = m_map s -> m_trace s' = m_trace s ++ o -> finals id o = [] -> outs id o = [] -> merging id s'.
  Proof. intros (d & q & E & C & M) EM ET F O. exists d, q. rewrite ET, finals_app, outs_app, F, O, !app_nil_r, EM. auto. Qed.

  (** Responses and replies, one message *)
  Definition known (id : pv) (s : mst) : Prop := exists d q, finals id (m_trace s) = d ++ q /\ chunks configs d (outs id (m_trace s)) /\
    match map_get id (m_map s) with None => q = [] | Some (n, l) => n = configs /\ l = q /\ q <> [] /\ (length q < configs)%nat end.

  Lemma base_queue_conn id v s : m_conn s = Some true ->
    (writable id v /\ base_queue id v s = (memit (MReply id v) s, Ok tt)) \/ (~ writable id v /\ exists e, base_queue id v s = (s, Err e)).
  Proof.
    intros C. unfold base_queue. rewrite C. destruct (toWire (OMessage (class_tag KMessage) id v None)) as [w|e] eqn:T.
    - left. split; [exists w; exact T|reflexivity].
    - right. split; [|eauto]. intros (w & X). change 0x10 with (class_tag KMessage) in X. congruence.
  Qed.
  Lemma base_queue_other id v s : m_conn s <> Some true -> base_queue id v s = (s, Err ELostConn).
  Proof. intros C. unfold base_queue. destruct (m_conn s) as [[]|]; congruence. Qed.

  Lemma good_memit e s : good s -> good (memit e s).
  Proof. intros [G1 G2 G3 G4 G5 G6]. split; assumption. Qed.
  Lemma good_mw_map m s : good s -> good (mw_map m s).
  Proof. intros [G1 G2 G3 G4 G5 G6]. split; assumption. Qed.

  (** Requests that go to all *)
  Lemma inv_when id op s : inv s -> inv (m_when id op (memit (MGot id op) s)).
  Proof.
    intros [G FR M]. destruct G as [G1 G2 G3 G4 G5 G6]. unfold m_when. cbn [memit m_all m_clients m_waiting]. assert (D : m_all s = true \/ m_all s = false) by (destruct (m_all s); auto). destruct D as [A|A]; rewrite A.
    - destruct (queue_all_spec id op (m_clients s) (memit (MGot id op) s) G2 G6) as (K & W & OM & OT & o & T & F & _). cbn zeta in *. set (s' := queue_all (m_clients s) id op (memit (MGot id op) s)) in *.
      destruct K. cbn [memit m_conn m_tried m_clients m_all m_map m_waiting m_unbound m_next m_links m_trace] in *. pose proof (passing_quiet _ _ _ _ F) as Q.
      split.
      + split; [congruence|congruence|rewrite kp_clients0, kp_tried0; exact G3|rewrite kp_all0, kp_clients0, kp_conn0; exact G4| |exact W].
        intros j b i I. rewrite kp_all0, kp_clients0. destruct (in_dec Nat.eq_dec j (m_clients s)) as [IJ|NJ]; [split; auto|]. rewrite (OT j NJ) in I. exact (G5 _ _ _ I).
      + intros j b i v I. rewrite T in I. apply in_app_or in I as [I|I]; [apply in_app_or in I as [I|[I|[]]]; [exact (FR _ _ _ _ I)|discriminate]|].
        rewrite Forall_forall in Q. destruct (Q _ I).
      + rewrite T, <- app_assoc. intros AW id'. destruct (M (written_before _ _ AW) id') as (M1 & M2 & M3). split; [|split].
        * apply (merging_same id' s s' ([MGot id op] ++ o) M1); [congruence|rewrite T; now rewrite app_assoc| |]; [rewrite finals_app, (finals_quiet id' o Q)|rewrite outs_app, (outs_quiet id' o Q)]; reflexivity.
        * rewrite entries_out_app, entries_in_app, entries_out_app, entries_in_app, (entries_out_quiet id' o Q), (entries_in_quiet id' o Q). cbn [entries_in entries_out flat_map]. now rewrite !app_nil_r.
        * intros j. pose proof (M3 j) as X. pose proof (one_more_slots id' _ _ _ _ _ (OM j)) as Y. rewrite T, kp_waiting0, !finals_from_app, !uses_app, (finals_from_quiet j id' o Q), (uses_quiet id' o Q), !app_length.
          replace (uses id' [MGot id op]) with (length (of id id' [tt])) by (unfold uses; cbn; now rewrite app_nil_r). cbn [finals_from flat_map length app]. cbn in Y. lia.
    - split.
      + split; try assumption.
      + intros j b i v I. cbn in I. apply in_app_or in I as [I|[I|[]]]; [exact (FR _ _ _ _ I)|discriminate].
      + cbn [mw_waiting memit m_trace]. intros AW id'. destruct (M (written_before _ _ AW) id') as (M1 & M2 & M3). split; [|split].
        * apply (merging_same id' s _ [MGot id op] M1); reflexivity.
        * rewrite entries_out_app, entries_in_app. cbn [entries_in entries_out flat_map]. now rewrite !app_nil_r.
        * intros j. pose proof (M3 j) as X. cbn [mw_waiting memit m_links m_trace m_waiting]. rewrite finals_from_app, uses_app, held_app, app_length.
          replace (uses id' [MGot id op]) with (length (of id id' [tt])) by (unfold uses; cbn; now rewrite app_nil_r). replace (held id' [(id, op)]) with (length (of id id' [tt])) by (unfold held; cbn; now rewrite app_nil_r).
          change (finals_from j id' [MGot id op]) with (@nil obj). cbn [length]. lia.
  Qed.
  (** Events that carry nothing *)
  Lemma inv_skip s s' o : inv s -> m_trace s' = m_trace s ++ o -> Forall quiet o -> m_conn s' = m_conn s -> m_clients s' = m_clients s -> m_all s' = m_all s -> m_map s' = m_map s -> m_waiting s' = m_waiting s ->
    (forall j, In j (m_tried s) -> In j (m_tried s')) -> m_next s <= m_next s' -> (forall k, l_wire (m_links s' k) = l_wire (m_links s k) \/ l_wire (m_links s' k) = []) -> inv s'.
  Proof.
    intros [[G1 G2 G3 G4 G5 G6] FR M] T Q E1 E2 E3 E4 E5 E6 E7 E8.
    assert (SUB : forall k x, In x (l_wire (m_links s' k)) -> In x (l_wire (m_links s k))) by (intros k x; destruct (E8 k) as [-> | ->]; [auto|intros []]).
    split.
    - split; [congruence|congruence| |rewrite E1, E2, E3; exact G4| |].
      + intros j. rewrite E2. intros I. destruct (G3 j I). auto.
      + intros j b i I. rewrite E2, E3. exact (G5 _ _ _ (SUB _ _ I)).
      + intros k b i I. pose proof (G6 _ _ _ (SUB _ _ I)). lia.
    - intros j b i v I. rewrite T in I. apply in_app_or in I as [I|I]; [exact (FR _ _ _ _ I)|]. rewrite Forall_forall in Q. destruct (Q _ I).
    - rewrite T. intros AW id. destruct (M (written_before _ _ AW) id) as (M1 & M2 & M3). split; [|split].
      + apply (merging_same id s s' o M1); auto using finals_quiet, outs_quiet.
      + rewrite entries_out_app, entries_in_app, (entries_out_quiet id o Q), (entries_in_quiet id o Q), !app_nil_r. exact M2.
      + intros j. pose proof (M3 j) as X. rewrite T, E5, finals_from_app, uses_app, app_length, (finals_from_quiet j id o Q), (uses_quiet id o Q). cbn [length].
        assert (slots id (l_wire (m_links s' j)) <= slots id (l_wire (m_links s j)))%nat by (destruct (E8 j) as [-> | ->]; cbn; lia). lia.
  Qed.
  (** A reply of the server itself *)
  Lemma inv_refuse id op v s : inv s -> m_conn s = Some true -> fin v = false -> on_the_way v = false ->
    inv (match m_queue id v (memit (MGot id op) s) with (s', Ok _) => s' | (s', Err e) => memit (MRaised e) s' end).
  Proof.
    intros [G FR M] C NF NO. unfold m_queue. rewrite fin_last, NF.
    assert (CORE : forall o, (o = [MReply id v] \/ exists e, o = [MRaised e]) -> forall s', m_trace s' = m_trace s ++ ([MGot id op] ++ o) -> m_links s' = m_links s -> m_map s' = m_map s -> m_waiting s' = m_waiting s -> good s' -> inv s').
    { intros o O s' T EL EM EW G'. split; [exact G'| |].
      - intros j b i w I. rewrite T in I. apply in_app_or in I as [I|[I|I]]; [exact (FR _ _ _ _ I)|discriminate|]. destruct O as [-> | (e & ->)]; destruct I as [I|[]]; discriminate.
      - rewrite T. intros AW id'. destruct (M (written_before _ _ AW) id') as (M1 & M2 & M3).
        assert (Z1 : finals id' ([MGot id op] ++ o) = []) by (destruct O as [-> | (e & ->)]; reflexivity).
        assert (Z2 : outs id' ([MGot id op] ++ o) = []). { destruct O as [-> | (e & ->)]; [|reflexivity]. cbn. rewrite NF. unfold of. destruct (pv_dec id id'); reflexivity. }
        assert (Z3 : entries_in id' ([MGot id op] ++ o) = []) by (destruct O as [-> | (e & ->)]; reflexivity).
        assert (Z4 : entries_out id' ([MGot id op] ++ o) = []). { destruct O as [-> | (e & ->)]; [|reflexivity]. cbn. rewrite NO. unfold of. destruct (pv_dec id id'); reflexivity. }
        split; [|split].
        + exact (merging_same id' s s' _ M1 EM T Z1 Z2).
        + rewrite entries_out_app, entries_in_app, Z3, Z4, !app_nil_r. exact M2.
        + intros j. pose proof (M3 j) as X. assert (Z5 : finals_from j id' ([MGot id op] ++ o) = []) by (destruct O as [-> | (e & ->)]; reflexivity). rewrite T, EL, EW, finals_from_app, Z5, app_nil_r, uses_app. lia. }
    destruct (base_queue_conn id v (memit (MGot id op) s) C) as [(_ & ->)|(_ & e & ->)].
    - apply (CORE [MReply id v]); auto using good_memit. cbn. now rewrite <- app_assoc.
    - apply (CORE [MRaised e]); eauto using good_memit. cbn. now rewrite <- app_assoc.
  Qed.
  Definition reply_only (id : pv) (e : mev) : Prop := match e with MReply i _ => i = id | MRaised _ => True | _ => False end.
  Lemma inv_arrive s s' j i rid v o : inv s -> (j < configs)%nat -> m_trace s' = m_trace s ++ (MArrived j i rid v :: o) -> Forall (reply_only rid) o -> good s' -> m_waiting s' = m_waiting s ->
    (all_written (m_trace s') -> merging rid s' /\ (forall id, id <> rid -> map_get id (m_map s') = map_get id (m_map s)) /\ entries_out rid o = entries_in rid [MArrived j i rid v] /\
       (forall k id, (slots id (l_wire (m_links s' k)) + (if Nat.eqb j k then length (of rid id (if fin v then [v] else [])) else 0) <= slots id (l_wire (m_links s k)))%nat)) -> inv s'.
  Proof.
    intros [G FR M] LT T O G' EW X. split; [exact G'| |].
    - intros k b id w I. rewrite T in I. apply in_app_or in I as [I|[I|I]]; [exact (FR _ _ _ _ I)|congruence|]. rewrite Forall_forall in O. destruct (O _ I).
    - intros AW id. destruct (X AW) as (X1 & X2 & X3 & X4). rewrite T in AW. destruct (M (written_before _ _ AW) id) as (M1 & M2 & M3).
      assert (Z0 : forall k id', finals_from k id' o = [] /\ uses id' o = 0%nat /\ finals id' o = [] /\ entries_in id' o = []).
      { intros k id'. repeat split; [unfold finals_from| |unfold finals|unfold entries_in]; try (apply flat_map_nil; eapply Forall_impl; [|exact O]; intros [] Y; cbn in *; try contradiction; reflexivity).
        unfold uses. rewrite flat_map_nil; [reflexivity|]. eapply Forall_impl; [|exact O]; intros [] Y; cbn in *; try contradiction; reflexivity. }
      assert (Z1 : id <> rid -> outs id o = [] /\ entries_out id o = []).
      { intros NE. split; [unfold outs|unfold entries_out]; (apply flat_map_nil; eapply Forall_impl; [|exact O]; intros [] Y; cbn in *; try contradiction; try reflexivity; subst; apply of_other; congruence). }
      split; [|split].
      + destruct (pv_dec id rid) as [->|NE]; [exact X1|]. destruct M1 as (d & q & E & C & MM). exists d, q. rewrite T.
        change (MArrived j i rid v :: o) with ([MArrived j i rid v] ++ o). rewrite finals_app, outs_app, finals_app, outs_app, (proj1 (Z1 NE)), (proj1 (proj2 (proj2 (Z0 0%nat id)))).
        cbn [finals outs flat_map]. rewrite of_other by congruence. rewrite !app_nil_r. rewrite (X2 id NE). auto.
      + rewrite T. change (MArrived j i rid v :: o) with ([MArrived j i rid v] ++ o). rewrite entries_out_app, entries_in_app, entries_out_app, entries_in_app, M2, (proj2 (proj2 (proj2 (Z0 0%nat id)))), app_nil_r. f_equal.
        destruct (pv_dec id rid) as [->|NE]; [exact X3|]. rewrite (proj2 (Z1 NE)). cbn. rewrite of_other by congruence. reflexivity.
      + intros k. pose proof (M3 k) as Y. pose proof (X4 k id) as W. rewrite T, EW. change (MArrived j i rid v :: o) with ([MArrived j i rid v] ++ o).
        destruct (Z0 k id) as (Z2 & Z3 & _ & _). rewrite !finals_from_app, !uses_app, !app_length, Z2, Z3. change (uses id [MArrived j i rid v]) with 0%nat.
        replace (length (finals_from k id [MArrived j i rid v])) with (if Nat.eqb j k then length (of rid id (if fin v then [v] else [])) else 0%nat); [cbn [length]; lia|].
        cbn. rewrite app_nil_r. destruct (Nat.eqb j k); reflexivity.
  Qed.

  Lemma inv_response j msg s : inv s -> inv (m_response j msg s).
  Proof.
    intros V. pose proof V as [G FR M].
    assert (SK : forall e, inv (memit (MRaised e) s)).
    { intros e. apply (inv_skip s _ [MRaised e] V); cbn; auto; [repeat constructor|lia]. }
    unfold m_response. destruct msg; try apply SK. destruct (is_response msg) eqn:IR; [|apply SK]. destruct id as [|i|]; try apply SK. destruct (i =? 0); [exact V|].
    destruct (find (fun x => fst x =? i) (l_wire (m_links s j))) as [(b & rid)|] eqn:FD; [|apply SK].
    destruct (find_some _ _ FD) as (IN & EI). cbn in EI. apply Z.eqb_eq in EI. subst b. destruct (g_wire _ G _ _ _ IN) as (A & IJ). destruct (g_all _ G A) as (LC & C). pose proof (proj2 (g_tried _ G _ IJ)) as LT.
    set (v := msg) in *. clearbody v. unfold m_queue. rewrite fin_last. cbn [memit m_map m_clients].
    assert (AR : forall o, all_written (m_trace s ++ (MArrived j i rid v :: o)) -> writable rid v). { intros o AW. apply (AW j i rid v). apply in_or_app. right. now left. }
    destruct (fin v) eqn:FV.
    - assert (GD : forall t, good t -> forall u, good (mw_link j (mkLink u (wire_del i (l_wire (m_links t j)))) t)).
      { intros t [G1 G2 G3 G4 G5 G6] u. split; try assumption.
        - intros k b' i' I. cbn in I. destruct (Nat.eqb k j) eqn:E; [|exact (G5 _ _ _ I)]. apply Nat.eqb_eq in E. subst k. cbn in I. apply filter_In in I as (I & _). exact (G5 _ _ _ I).
        - intros k b' i' I. cbn in I. destruct (Nat.eqb k j) eqn:E; [|exact (G6 _ _ _ I)]. apply Nat.eqb_eq in E. subst k. cbn in I. apply filter_In in I as (I & _). exact (G6 _ _ _ I). }
      assert (SL : forall k id, (slots id (l_wire (if Nat.eqb k j then mkLink (l_up (m_links s j)) (wire_del i (l_wire (m_links s j))) else m_links s k)) +
                    (if Nat.eqb j k then length (of rid id [v]) else 0) <= slots id (l_wire (m_links s k)))%nat).
      { intros k id. destruct (Nat.eq_dec k j) as [->|NE].
        - rewrite !Nat.eqb_refl. cbn [l_wire]. pose proof (slots_del_le id i (l_wire (m_links s j))). unfold of. destruct (pv_dec rid id) as [<- |]; [|cbn; lia]. pose proof (slots_del _ _ _ _ FD). cbn. lia.
        - rewrite (proj2 (Nat.eqb_neq k j) NE), (proj2 (Nat.eqb_neq j k)) by congruence. lia. }
      assert (EO : entries_in rid [MArrived j i rid v] = []). { cbn. rewrite of_same, app_nil_r. destruct v; try discriminate. reflexivity. }
      set (q := match map_get rid (m_map s) with None => (length (m_clients s), [v]) | Some (n, l) => (n, l ++ [v]) end).
      (* what the dictionary holds with the new response *)
      assert (KN : all_written (m_trace s) -> exists d q0, finals rid (m_trace s) = d ++ q0 /\ chunks configs d (outs rid (m_trace s)) /\ q = (configs, q0 ++ [v]) /\ (length q0 < configs)%nat).
      { intros AW. destruct (M AW rid) as ((d & q0 & E & CH & MM) & _). exists d, q0. split; [exact E|]. split; [exact CH|]. unfold q. destruct (map_get rid (m_map s)) as [(n & l)|].
        - destruct MM as (-> & -> & _ & L). auto.
        - subst q0. rewrite LC. split; [reflexivity|cbn; lia]. }
      destruct (q_full q) eqn:QF.
      + destruct (base_queue_conn rid (pick (firstn (length (m_clients s)) (snd q)) v) (mw_map (map_del rid (m_map s)) (memit (MArrived j i rid v) s)) C) as [(W & E)|(NW & e & E)]; rewrite E.
        * apply (inv_arrive s _ j i rid v [MReply rid (pick (firstn (length (m_clients s)) (snd q)) v)] V LT).
          -- cbn. now rewrite <- app_assoc.
          -- repeat constructor.
          -- apply GD. apply good_memit, good_mw_map, good_memit, G.
          -- reflexivity.
          -- cbn [mw_link memit mw_map m_trace m_map m_links]. rewrite <- app_assoc. cbn [app]. intros AW. destruct (KN (written_before _ _ AW)) as (d & q0 & EF & CH & EQ & LQ). rewrite EQ in *. cbn [snd] in *.
             assert (LN : length (q0 ++ [v]) = configs). { unfold q_full in QF. cbn [fst snd] in QF. apply andb_true_iff in QF as (_ & QF). apply Nat.leb_le in QF. rewrite app_length in *. cbn in *. lia. }
             assert (FA : firstn (length (m_clients s)) (q0 ++ [v]) = q0 ++ [v]) by (rewrite LC, <- LN; apply firstn_all). rewrite FA in *.
             assert (PS : stands_for (q0 ++ [v]) (pick (q0 ++ [v]) v)) by (apply pick_stands; apply in_or_app; right; now left).
             assert (PF : fin (pick (q0 ++ [v]) v) = true).
             { destruct PS as (IP & _). apply in_app_or in IP as [IP|[<- | []]]; [|exact FV]. assert (IP' : In (pick (q0 ++ [v]) v) (finals rid (m_trace s))) by (rewrite EF; apply in_or_app; now right). apply in_finals in IP'. tauto. }
             split; [|split; [|split]].
             ++ exists (d ++ (q0 ++ [v])), []. cbn [mw_link memit mw_map m_trace m_map m_links]. rewrite <- app_assoc. cbn [app]. rewrite finals_app, outs_app, EF. cbn [finals outs flat_map]. rewrite !of_same, FV, PF, !app_nil_r.
                split; [now rewrite app_assoc|]. split; [|rewrite map_get_del; destruct (pv_dec rid rid); [reflexivity|congruence]]. apply Ch_more; [exact CH|exact LN|exact PS].
             ++ intros id NE. rewrite map_get_del. destruct (pv_dec rid id); [congruence|reflexivity].
             ++ rewrite EO. cbn. rewrite of_same, app_nil_r. destruct (pick (q0 ++ [v]) v); try discriminate. reflexivity.
             ++ rewrite FV. exact SL.
        * apply (inv_arrive s _ j i rid v [MRaised e] V LT).
          -- cbn. now rewrite <- app_assoc.
          -- repeat constructor.
          -- apply good_memit, good_mw_map, good_memit, G.
          -- reflexivity.
          -- cbn [mw_link memit mw_map m_trace m_map m_links]. rewrite <- app_assoc. cbn [app]. intros AW. exfalso. apply NW. destruct (KN (written_before _ _ AW)) as (d & q0 & EF & CH & EQ & LQ). rewrite EQ in *. cbn [snd] in *.
             assert (LN : length (q0 ++ [v]) = configs). { unfold q_full in QF. cbn [fst snd] in QF. apply andb_true_iff in QF as (_ & QF). apply Nat.leb_le in QF. rewrite app_length in *. cbn in *. lia. }
             assert (FA : firstn (length (m_clients s)) (q0 ++ [v]) = q0 ++ [v]) by (rewrite LC, <- LN; apply firstn_all). rewrite FA. assert (PS : stands_for (q0 ++ [v]) (pick (q0 ++ [v]) v)) by (apply pick_stands; apply in_or_app; right; now left).
             destruct PS as (IP & _). apply in_app_or in IP as [IP|[<- | []]]; [|exact (AR _ AW)].
             assert (IP' : In (pick (q0 ++ [v]) v) (finals rid (m_trace s))) by (rewrite EF; apply in_or_app; now right). apply in_finals in IP' as (_ & j' & b' & I'). apply (AW j' b'). apply in_or_app. now left.
      + apply (inv_arrive s _ j i rid v [] V LT).
        * reflexivity.
        * constructor.
        * apply GD. apply good_mw_map, good_memit, G.
        * reflexivity.
        * cbn [mw_link memit mw_map m_trace m_map m_links]. intros AW. destruct (KN (written_before _ _ AW)) as (d & q0 & EF & CH & EQ & LQ).
          assert (LN : (length (q0 ++ [v]) < configs)%nat). { rewrite EQ in QF. unfold q_full in QF. cbn [fst snd] in QF. apply andb_false_iff in QF as [QF|QF]; [apply Nat.ltb_ge in QF|apply Nat.leb_gt in QF]; lia. }
          split; [|split; [|split]].
          -- exists d, (q0 ++ [v]). cbn [mw_link memit mw_map m_trace m_map m_links]. rewrite finals_app, outs_app, EF, EQ. cbn [finals outs flat_map]. rewrite of_same, FV, !app_nil_r.
             split; [now rewrite app_assoc|]. split; [exact CH|]. rewrite map_get_set. destruct (pv_dec rid rid); [|congruence]. repeat split; auto. destruct q0; discriminate.
          -- intros id NE. rewrite map_get_set. destruct (pv_dec rid id); [congruence|reflexivity].
          -- rewrite EO. reflexivity.
          -- rewrite FV. exact SL.
    - assert (SL : forall k id, (slots id (l_wire (m_links s k)) + (if Nat.eqb j k then length (of rid id (@nil obj)) else 0) <= slots id (l_wire (m_links s k)))%nat).
      { intros k id. unfold of. destruct (pv_dec rid id), (Nat.eqb j k); cbn; lia. }
      destruct (base_queue_conn rid v (memit (MArrived j i rid v) s) C) as [(W & E)|(NW & e & E)]; rewrite E.
      + apply (inv_arrive s _ j i rid v [MReply rid v] V LT); [cbn; now rewrite <- app_assoc|repeat constructor|apply good_memit, good_memit, G|reflexivity|]. cbn [memit m_trace m_map m_links]. rewrite <- app_assoc. cbn [app]. intros AW.
        destruct (M (written_before _ _ AW) rid) as (M1 & M2 & M3). split; [|split; [auto|split; [reflexivity|rewrite FV; exact SL]]].
        apply (merging_same rid s _ [MArrived j i rid v; MReply rid v] M1); [reflexivity|cbn; now rewrite <- app_assoc| |]; cbn; now rewrite of_same, FV.
      + apply (inv_arrive s _ j i rid v [MRaised e] V LT); [cbn; now rewrite <- app_assoc|repeat constructor|apply good_memit, good_memit, G|reflexivity|]. cbn [memit m_trace m_map m_links]. rewrite <- app_assoc. cbn [app]. intros AW.
        exfalso. apply NW. exact (AR _ AW).
  Qed.

  Lemma inv_handle msg s : inv s -> m_conn s = Some true -> inv (m_handle msg s).
  Proof.
    intros V C. assert (SK : forall e, inv (memit (MRaised e) s)). { intros e. apply (inv_skip s _ [MRaised e] V); cbn; auto; [repeat constructor|lia]. }
    unfold m_handle. destruct msg; try apply SK. destruct (kind_of msg) as [k|] eqn:K; [|apply SK].
    cbn zeta. set (body := match k with RDelete | RAdd | RModifyDN | RModify | RExtended => _ | RUnbind => _ | RBind | RSearch | RCompare | RAbandon => _ end). assert (GO : inv body).
    { subst body. destruct k; try (apply inv_when; exact V); try (apply (inv_refuse id msg _ s V C); reflexivity).
      change (mw_unbound true (memit (MGot id msg) s)) with (memit (MGot id msg) (mw_unbound true s)). apply inv_when. apply (inv_skip s _ [] V); cbn; auto; [symmetry; apply app_nil_r|lia]. }
    clearbody body. destruct id as [|z|]; try exact GO. destruct z; [exact V|exact GO|exact GO].
  Qed.

  Lemma inv_step s e : inv s -> client_stays e -> inv (mstep configs tls s e).
  Proof.
    intros V ST. pose proof V as [G FR M]. destruct e; cbn [mstep].
    - destruct (m_conn s) eqn:C; [exact V|]. destruct G as [G1 G2 G3 G4 G5 G6]. split; [split; try assumption|exact FR|exact M]; cbn; [discriminate|]. intros A. split; [exact (proj1 (G4 A))|reflexivity].
    - destruct (tries configs tls s j) eqn:T; [|exact V]. destruct (tries_new _ _ T) as (NT & LT & NN).
      assert (C : m_conn s = Some true). { pose proof (g_conn _ G). destruct (m_conn s) as [[]|]; congruence. }
      assert (A : m_all s = false). { destruct (m_all s) eqn:A; [|reflexivity]. rewrite (all_tried s j G A) in T. discriminate. }
      assert (NW : forall k, l_wire (m_links s k) = []). { intros k. destruct (l_wire (m_links s k)) as [|(b & i) l] eqn:E; [reflexivity|]. destruct (g_wire _ G k b i) as (X & _); [rewrite E; now left|congruence]. }
      set (s1 := mw_clients (m_clients s ++ [j]) (mw_link j (mkLink true []) (mw_tried (j :: m_tried s) s))).
      assert (NW1 : forall k, l_wire (m_links s1 k) = []). { intros k. cbn. destruct (Nat.eqb k j); [reflexivity|apply NW]. }
      set (s2 := if Nat.eqb (length (m_clients s1)) configs then mw_all true s1 else s1).
      assert (V2 : inv s2 /\ m_waiting s2 = m_waiting s).
      { assert (TR : forall t, m_trace t = m_trace s -> m_map t = m_map s -> m_waiting t = m_waiting s -> (forall k, l_wire (m_links t k) = []) -> good t -> inv t).
        { intros t E1 E2 E3 E4 Gt. split; [exact Gt|unfold arrived_from; rewrite E1; exact FR|]. rewrite E1. intros AW id. destruct (M AW id) as (M1 & M2 & M3). split; [|split; [exact M2|]].
          - apply (merging_same id s t [] M1 E2); [rewrite E1; symmetry; apply app_nil_r|reflexivity|reflexivity].
          - intros k. pose proof (M3 k) as X. rewrite E1, E3, E4. rewrite NW in X. exact X. }
        assert (ND : NoDup (m_clients s ++ [j])). { apply NoDup_snoc; [exact (g_nodup _ G)|]. intros I. apply NT. exact (proj1 (g_tried _ G _ I)). }
        assert (TD : forall k, In k (m_clients s ++ [j]) -> In k (j :: m_tried s) /\ (k < configs)%nat).
        { intros k I. apply in_app_or in I as [I|[<- | []]]; [|split; [now left|exact LT]]. destruct (g_tried _ G _ I). split; [now right|assumption]. }
        unfold s2. destruct (Nat.eqb (length (m_clients s1)) configs) eqn:L; (split; [|reflexivity]); apply TR; try reflexivity; try exact NW1; split; try exact ND; try exact TD.
        - cbn. congruence.
        - intros _. split; [now apply Nat.eqb_eq|exact C].
        - intros k b i I. cbn [mw_all m_links] in I. rewrite NW1 in I. destruct I.
        - intros k b i I. cbn [mw_all m_links] in I. rewrite NW1 in I. destruct I.
        - cbn. congruence.
        - cbn. congruence.
        - intros k b i I. rewrite NW1 in I. destruct I.
        - intros k b i I. rewrite NW1 in I. destruct I. }
      clearbody s2. clear s1 NW1. destruct V2 as (V2 & EW). destruct (m_all s2) eqn:A2; [|exact V2]. rewrite EW.
      pose proof V2 as [G2 FR2 M2]. destruct (release_spec (m_waiting s) s2 (g_nodup _ G2) (g_new _ G2)) as ((E1 & E2 & E3 & E4 & E5 & E6 & E7 & E8) & W & UP & OT & SL & o & TR & Q & _). cbn zeta in *.
      set (s3 := m_release (m_waiting s) s2) in *. split.
      + split; [rewrite E1; apply G2|rewrite E3; apply G2|rewrite E3, E2; apply G2|rewrite E4, E3, E1; apply G2| |exact W].
        intros k b i I. rewrite E4, E3. destruct (in_dec Nat.eq_dec k (m_clients s2)) as [IK|NK]; [split; assumption|]. rewrite (OT k NK) in I. exact (g_wire _ G2 _ _ _ I).
      + intros k b i v I. rewrite TR in I. apply in_app_or in I as [I|I]; [exact (FR2 _ _ _ _ I)|]. rewrite Forall_forall in Q. destruct (Q _ I).
      + rewrite TR. intros AW id. destruct (M2 (written_before _ _ AW) id) as (X1 & X2 & X3). split; [|split].
        * apply (merging_same id s2 s3 o X1 E5 TR); auto using finals_quiet, outs_quiet.
        * rewrite entries_out_app, entries_in_app, (entries_out_quiet id o Q), (entries_in_quiet id o Q), !app_nil_r. exact X2.
        * intros k. pose proof (X3 k) as X. pose proof (SL k id) as Y. rewrite TR, finals_from_app, uses_app, app_length, (finals_from_quiet k id o Q), (uses_quiet id o Q). cbn [length]. rewrite EW in X.
          assert (Z : held id (m_waiting s3) = 0%nat) by (rewrite E8; destruct (m_waiting s) eqn:Z; [rewrite EW; reflexivity|reflexivity]). lia.
    - destruct (tries configs tls s j) eqn:T; [|exact V]. apply (inv_skip s _ [MCloseClient; MRaised (ELdap 80)] V); cbn; auto; try lia; try (now rewrite <- app_assoc); repeat constructor.
    - destruct (m_conn s) as [[]|] eqn:C; try exact V. now apply inv_handle.
    - destruct (l_up (m_links s j)); [now apply inv_response|exact V].
    - apply (inv_skip s _ [] V); cbn; auto; [symmetry; apply app_nil_r|lia|]. intros k. destruct (Nat.eqb k j); auto.
    - destruct ST.
    - apply (inv_skip s _ [] V); cbn; auto; [symmetry; apply app_nil_r|lia].
  Qed.
  Lemma run_inv next es : Forall client_stays es -> inv (mrun configs tls next es).
  Proof.
    unfold mrun. assert (GO : forall l s, inv s -> Forall client_stays l -> inv (fold_left (mstep configs tls) l s)).
    { induction l as [|e l IH]; intros s V F; [exact V|]. apply Forall_cons_iff in F as (E & F). cbn. apply IH; [now apply inv_step|exact F]. }
    intros F. apply GO; [|exact F]. split.
    - split; cbn; try discriminate; try contradiction; [constructor|]. intros k b i [].
    - intros k b i v [].
    - intros _ id. split; [|split; [reflexivity|intros k; cbn; lia]]. exists [], []. split; [reflexivity|]. split; [constructor|reflexivity].
  Qed.
End Stays.

(** ** Requests go to all backends, in order *)
Section Sent.
  Variable configs tls : nat.
  Variable N : Z.
  Record fw (s : mst) : Prop := {
    f_up : forall j, In j (m_clients s) -> l_up (m_links s j) = true;
    f_next : 0 <= m_next s;
    f_none : m_all s = false -> forall j, sent_to j (m_trace s) = [];
    f_sent : m_next s <= N -> Forall (fun r => encodable N (snd r)) (wanted (m_trace s)) ->
      (m_all s = false -> m_waiting s = wanted (m_trace s)) /\ (m_all s = true -> m_waiting s = [] /\ forall j, In j (m_clients s) -> sent_to j (m_trace s) = wanted (m_trace s)) }.
  Lemma fw_skip s s' o : fw s -> m_trace s' = m_trace s ++ o -> wanted o = [] -> (forall j, sent_to j o = []) -> m_clients s' = m_clients s -> m_all s' = m_all s -> m_waiting s' = m_waiting s ->
    m_next s <= m_next s' -> (forall k, l_up (m_links s k) = true -> l_up (m_links s' k) = true) -> fw s'.
  Proof.
    intros [F1 F2 F3 F4] T W S E1 E2 E3 E4 E5. split.
    - intros j. rewrite E1. auto.
    - lia.
    - rewrite E2. intros A j. rewrite T, sent_to_app, S, app_nil_r. auto.
    - rewrite T, wanted_app, W, app_nil_r, E2, E3. intros L EN. destruct F4 as (X & Y); [lia|exact EN|]. split; [exact X|]. intros A. destruct (Y A) as (Y1 & Y2). split; [exact Y1|].
      intros j. rewrite E1, sent_to_app, S, app_nil_r. apply Y2.
  Qed.
  Lemma fw_when id op s : good configs s -> fw s -> merged_kind op = true -> fw (m_when id op (memit (MGot id op) s)).
  Proof.
    intros [G1 G2 G3 G4 G5 G6] [F1 F2 F3 F4] MK. unfold m_when. cbn [memit m_all m_clients m_waiting]. assert (D : m_all s = true \/ m_all s = false) by (destruct (m_all s); auto). destruct D as [A|A]; rewrite A.
    - destruct (queue_all_spec id op (m_clients s) (memit (MGot id op) s) G2 G6) as (K & W & OM & OT & o & T & F & X). cbn zeta in *. set (s' := queue_all (m_clients s) id op (memit (MGot id op) s)) in *.
      destruct K. cbn [memit m_conn m_tried m_clients m_all m_map m_waiting m_unbound m_next m_links m_trace] in *. pose proof (passing_quiet _ _ _ _ F) as Q. split.
      + intros j. rewrite kp_clients0. intros I. rewrite (one_more_up _ _ _ _ _ (OM j)). auto.
      + lia.
      + congruence.
      + rewrite kp_all0. intros L. rewrite T, !wanted_app, (wanted_quiet o Q), app_nil_r. cbn [wanted flat_map]. rewrite MK. cbn [app]. intros EN. apply Forall_app in EN as (EN & E1). apply Forall_cons_iff in E1 as (E1 & _). cbn [snd] in E1.
        destruct F4 as (_ & F4); [lia|exact EN|]. destruct (F4 A) as (FW & FS). split; [congruence|]. intros _. split; [congruence|]. intros j. rewrite kp_clients0. intros I. rewrite !sent_to_app, FS by exact I. change (sent_to j [MGot id op]) with (@nil (pv * obj)).
        rewrite app_nil_r, (X N); [|apply Forall_forall; exact F1|exact F2|exact L|exact E1]. destruct (in_dec Nat.eq_dec j (m_clients s)); [reflexivity|contradiction].
    - split.
      + exact F1.
      + exact F2.
      + intros _ j. cbn [mw_waiting memit m_trace]. rewrite sent_to_app, F3 by exact A. reflexivity.
      + cbn [mw_waiting memit m_trace m_all m_next m_waiting]. rewrite wanted_app. cbn [wanted flat_map]. rewrite MK. cbn [app]. intros L EN. apply Forall_app in EN as (EN & _). destruct (F4 L EN) as (X & _). split; [|congruence]. intros _. now rewrite (X A).
  Qed.
  Lemma base_queue_trace id v s : exists o, m_trace (fst (base_queue id v s)) = m_trace s ++ o /\ (o = [] \/ o = [MReply id v]) /\ m_links (fst (base_queue id v s)) = m_links s /\ m_clients (fst (base_queue id v s)) = m_clients s /\
    m_all (fst (base_queue id v s)) = m_all s /\ m_waiting (fst (base_queue id v s)) = m_waiting s /\ m_next (fst (base_queue id v s)) = m_next s.
  Proof. unfold base_queue. destruct (m_conn s) as [[]|]; [destruct (toWire _)| |]; cbn; eauto 10 using app_nil_r; exists []; rewrite app_nil_r; auto 10. Qed.
  Lemma m_queue_trace id v s : exists o, m_trace (fst (m_queue id v s)) = m_trace s ++ o /\ (o = [] \/ exists w, o = [MReply id w]) /\ m_links (fst (m_queue id v s)) = m_links s /\ m_clients (fst (m_queue id v s)) = m_clients s /\
    m_all (fst (m_queue id v s)) = m_all s /\ m_waiting (fst (m_queue id v s)) = m_waiting s /\ m_next (fst (m_queue id v s)) = m_next s.
  Proof.
    unfold m_queue. destruct (last_response v).
    - set (q := match map_get id (m_map s) with None => (length (m_clients s), [v]) | Some (n, l) => (n, l ++ [v]) end). cbn zeta. destruct (q_full q).
      + destruct (base_queue_trace id (pick (firstn (length (m_clients s)) (snd q)) v) (mw_map (map_del id (m_map s)) s)) as (o & T & O & X). exists o. split; [exact T|]. split; [destruct O; eauto|exact X].
      + exists []. cbn. rewrite app_nil_r. auto 10.
    - destruct (base_queue_trace id v s) as (o & T & O & X). exists o. split; [exact T|]. split; [destruct O; eauto|exact X].
  Qed.
  Lemma fw_raised e s : fw s -> fw (memit (MRaised e) s).
  Proof. intros F. apply (fw_skip s _ [MRaised e] F); cbn; auto. lia. Qed.
  Lemma fw_handle msg s : good configs s -> fw s -> fw (m_handle msg s).
  Proof.
    intros G F. unfold m_handle. destruct msg; try (apply fw_raised; exact F). destruct (kind_of msg) as [k|] eqn:K; [|apply fw_raised; exact F].
    cbn zeta. set (body := match k with RDelete | RAdd | RModifyDN | RModify | RExtended => _ | RUnbind => _ | RBind | RSearch | RCompare | RAbandon => _ end). assert (GO : fw body).
    { assert (RF : forall v, merged_kind msg = false -> fw (match m_queue id v (memit (MGot id msg) s) with (s', Ok _) => s' | (s', Err e) => memit (MRaised e) s' end)).
      { intros v MK. destruct (m_queue_trace id v (memit (MGot id msg) s)) as (o & T & O & E1 & E2 & E3 & E4 & E5). destruct (m_queue id v (memit (MGot id msg) s)) as (s' & r). cbn [fst] in *.
        assert (FS : fw s').
        { apply (fw_skip s _ ([MGot id msg] ++ o) F); auto.
          - rewrite T. cbn. now rewrite <- app_assoc.
          - rewrite wanted_app. cbn [wanted flat_map]. rewrite MK. destruct O as [-> | (w & ->)]; reflexivity.
          - intros j. destruct O as [-> | (w & ->)]; reflexivity.
          - rewrite E5. apply Z.le_refl.
          - intros k0. rewrite E1. auto. }
        destruct r; [exact FS|apply fw_raised; exact FS]. }
      assert (MK : forall b, (match k with RBind | RSearch | RCompare | RAbandon | RUnbind => true | _ => false end) = b -> merged_kind msg = b) by (intros b E; rewrite merged_kind_eq, K; exact E).
      subst body. destruct k; try (apply fw_when; [exact G|exact F|apply MK; reflexivity]); try (apply RF; apply MK; reflexivity).
      change (mw_unbound true (memit (MGot id msg) s)) with (memit (MGot id msg) (mw_unbound true s)). apply fw_when; [| |apply MK; reflexivity].
      - destruct G as [G1 G2 G3 G4 G5 G6]. split; assumption.
      - apply (fw_skip s _ [] F); cbn; auto; [symmetry; apply app_nil_r|lia]. }
    clearbody body. destruct id as [|z|]; try exact GO. destruct z; [exact F|exact GO|exact GO].
  Qed.
  Lemma fw_response j msg s : fw s -> fw (m_response j msg s).
  Proof.
    intros F. unfold m_response. destruct msg; try (apply fw_raised; exact F). destruct (is_response msg); [|apply fw_raised; exact F]. destruct id as [|i|]; try (apply fw_raised; exact F). destruct (i =? 0); [exact F|].
    destruct (find _ _) as [(b & rid)|]; [|apply fw_raised; exact F].
    destruct (m_queue_trace rid msg (memit (MArrived j i rid msg) s)) as (o & T & O & E1 & E2 & E3 & E4 & E5). destruct (m_queue rid msg (memit (MArrived j i rid msg) s)) as (s' & r). cbn [fst] in *.
    assert (FS : fw s').
    { apply (fw_skip s _ ([MArrived j i rid msg] ++ o) F); auto.
      - rewrite T. cbn. now rewrite <- app_assoc.
      - destruct O as [-> | (w & ->)]; reflexivity.
      - intros k. destruct O as [-> | (w & ->)]; reflexivity.
      - rewrite E5. apply Z.le_refl.
      - intros k0. rewrite E1. auto. }
    destruct r; [|apply fw_raised; exact FS]. destruct (last_response msg); [|exact FS]. apply (fw_skip s' _ [] FS); cbn; auto; [symmetry; apply app_nil_r|lia|]. intros k U. destruct (Nat.eqb k j) eqn:E; [|exact U]. apply Nat.eqb_eq in E. subst k. exact U.
  Qed.
  Lemma fw_step s e : inv configs s -> fw s -> client_stays e -> servers_stay e -> fw (mstep configs tls s e).
  Proof.
    intros V F CS SS. pose proof V as [G FR M]. destruct e; cbn [mstep]; try (destruct CS; fail); try (destruct SS; fail).
    - destruct (m_conn s); [exact F|]. apply (fw_skip s _ [] F); cbn; auto; [symmetry; apply app_nil_r|lia].
    - destruct (tries configs tls s j) eqn:T; [|exact F]. destruct (tries_new _ _ _ _ T) as (NT & LT & NN).
      assert (A : m_all s = false). { destruct (m_all s) eqn:A; [|reflexivity]. rewrite (all_tried configs tls s j G A) in T. discriminate. }
      pose proof F as [F1 F2 F3 F4]. set (s1 := mw_clients (m_clients s ++ [j]) (mw_link j (mkLink true []) (mw_tried (j :: m_tried s) s))).
      assert (U1 : forall k, In k (m_clients s1) -> l_up (m_links s1 k) = true).
      { intros k I. cbn in *. destruct (Nat.eqb k j) eqn:E; [reflexivity|]. apply in_app_or in I as [I|[<- | []]]; [auto|]. rewrite Nat.eqb_refl in E. discriminate. }
      destruct (Nat.eqb (length (m_clients s1)) configs) eqn:L.
      + cbn [mw_all m_all m_waiting].
        assert (ND : NoDup (m_clients (mw_all true s1))). { cbn. apply NoDup_snoc; [exact (g_nodup _ _ G)|]. intros I. apply NT. exact (proj1 (g_tried _ _ G _ I)). }
        assert (WN : wires_new (mw_all true s1)). { intros k b i I. cbn in I. destruct (Nat.eqb k j); [destruct I|]. exact (g_new _ _ G _ _ _ I). }
        destruct (release_spec (m_waiting s) (mw_all true s1) ND WN) as ((E1 & E2 & E3 & E4 & E5 & E6 & E7 & E8) & W & UP & OT & SL & o & TR & Q & X). cbn zeta in *.
        change (m_waiting s1) with (m_waiting s). set (s3 := m_release (m_waiting s) (mw_all true s1)) in *. change (m_trace (mw_all true s1)) with (m_trace s) in *. change (m_next (mw_all true s1)) with (m_next s) in *.
        change (m_clients (mw_all true s1)) with (m_clients s1) in *. change (m_links (mw_all true s1)) with (m_links s1) in *. change (m_all (mw_all true s1)) with true in *. split.
        * intros k. rewrite E3, UP. apply U1.
        * lia.
        * rewrite E4. discriminate.
        * intros LE. rewrite TR, wanted_app, (wanted_quiet o Q), app_nil_r. intros EN. split; [rewrite E4; discriminate|]. intros _. destruct F4 as (F4 & _); [lia|exact EN|]. specialize (F4 A). split.
          -- rewrite E8. destruct (m_waiting s) eqn:WS; [cbn; exact WS|reflexivity].
          -- intros k. rewrite E3. intros I. rewrite sent_to_app, F3 by exact A. cbn [app]. rewrite (X N); [|apply Forall_forall; exact U1|exact F2|exact LE|rewrite F4; exact EN].
             destruct (in_dec Nat.eq_dec k (m_clients s1)); [exact F4|contradiction].
      + change (m_all s1) with (m_all s). rewrite A. split; [exact U1|exact F2|intros _; exact (F3 A)|]. intros LE EN. destruct (F4 LE EN) as (X & _). split; [intros _; exact (X A)|]. cbn. congruence.
    - destruct (tries configs tls s j); [|exact F]. apply (fw_skip s _ [MCloseClient; MRaised (ELdap 80)] F); cbn; auto; try lia. now rewrite <- app_assoc.
    - destruct (m_conn s) as [[]|]; try exact F. now apply fw_handle.
    - destruct (l_up (m_links s j)); [now apply fw_response|exact F].
    - apply (fw_skip s _ [] F); cbn; auto; [symmetry; apply app_nil_r|lia].
  Qed.
  Lemma run_fw next es : 0 <= next -> Forall client_stays es -> Forall servers_stay es -> fw (mrun configs tls next es).
  Proof.
    intros L. unfold mrun. assert (GO : forall l s, inv configs s -> fw s -> Forall client_stays l -> Forall servers_stay l -> fw (fold_left (mstep configs tls) l s)).
    { induction l as [|e l IH]; intros s V F C S; [exact F|]. apply Forall_cons_iff in C as (C1 & C). apply Forall_cons_iff in S as (S1 & S). cbn. apply IH; auto using inv_step, fw_step. }
    intros C S. apply GO; auto.
    - exact (run_inv configs tls next [] (Forall_nil _)).
    - split; cbn; try contradiction; auto.
  Qed.
End Sent.

(** ** Counting by backend *)
Lemma sum_one {A} (f : nat -> list A) n j (l : list A) : (j < n)%nat -> (forall k, f k = if Nat.eqb j k then l else []) -> list_sum (map (fun k => length (f k)) (seq 0 n)) = length l.
Proof.
  intros LT F. assert (GO : forall m s, list_sum (map (fun k => length (f k)) (seq s m)) = if Nat.leb s j && Nat.ltb j (s + m) then length l else 0%nat).
  { induction m as [|m IH]; intros s; cbn [seq map].
    - destruct (Nat.leb s j) eqn:HA, (Nat.ltb j (s + 0)) eqn:HB; cbn; try reflexivity. apply Nat.leb_le in HA. apply Nat.ltb_lt in HB. lia.
    - change (list_sum (?x :: ?y)) with (x + list_sum y)%nat. rewrite IH, F. destruct (Nat.eqb j s) eqn:E.
      + apply Nat.eqb_eq in E. subst s. rewrite Nat.leb_refl. replace (Nat.leb (S j) j) with false by (symmetry; apply Nat.leb_gt; lia). replace (Nat.ltb j (j + S m)) with true by (symmetry; apply Nat.ltb_lt; lia). cbn. lia.
      + apply Nat.eqb_neq in E. replace (Nat.leb (S s) j) with (Nat.leb s j); [now rewrite Nat.add_succ_r|]. destruct (Nat.leb s j) eqn:HA; symmetry; [apply Nat.leb_le in HA; apply Nat.leb_le|apply Nat.leb_gt in HA; apply Nat.leb_gt]; lia. }
  rewrite GO. cbn [Nat.leb andb]. replace (Nat.ltb j (0 + n)) with true by (symmetry; apply Nat.ltb_lt; lia). reflexivity.
Qed.
Lemma list_sum_plus f g l : list_sum (map (fun k : nat => (f k + g k)%nat) l) = (list_sum (map f l) + list_sum (map g l))%nat.
Proof. induction l as [|x l IH]; [reflexivity|]. cbn [map]. change (list_sum (?x :: ?y)) with (x + list_sum y)%nat in *. lia. Qed.
Lemma list_sum_all f l c : (forall x : nat, In x l -> f x = c) -> list_sum (map f l) = (length l * c)%nat.
Proof. induction l as [|x l IH]; intros H; [reflexivity|]. cbn [map length]. change (list_sum (?x :: ?y)) with (x + list_sum y)%nat. rewrite IH by (intros y I; apply H; now right). rewrite (H x (or_introl eq_refl)). cbn. lia. Qed.
Lemma finals_sum n id t : (forall j b i v, In (MArrived j b i v) t -> (j < n)%nat) -> length (finals id t) = list_sum (map (fun j => length (finals_from j id t)) (seq 0 n)).
Proof.
  induction t as [|e t IH]; intros FR.
  - cbn. induction (seq 0 n) as [|x l IH]; [reflexivity|]. cbn. exact IH.
  - change (e :: t) with ([e] ++ t). rewrite finals_app, app_length, IH by (intros j b i v I; apply (FR j b i v); now right).
    transitivity (list_sum (map (fun j => (length (finals_from j id [e]) + length (finals_from j id t))%nat) (seq 0 n))).
    + rewrite list_sum_plus. f_equal. symmetry. destruct e; try (rewrite (list_sum_all _ _ 0%nat) by reflexivity; cbn; lia).
      cbn [finals flat_map]. rewrite app_nil_r. apply (sum_one (fun k => finals_from k id [MArrived j b id0 v]) n j); [apply (FR j b id0 v); now left|]. intros k. cbn. rewrite app_nil_r. reflexivity.
    + f_equal. apply map_ext. intros j. change (e :: t) with ([e] ++ t). now rewrite finals_from_app, app_length.
Qed.
Lemma list_sum_le f l c : (forall x : nat, In x l -> (f x <= c)%nat) -> (list_sum (map f l) <= length l * c)%nat.
Proof. induction l as [|x l IH]; intros H; [apply le_n|]. cbn [map length]. change (list_sum (?x :: ?y)) with (x + list_sum y)%nat. pose proof (IH (fun y I => H y (or_intror I))). pose proof (H x (or_introl eq_refl)). cbn. lia. Qed.
Lemma chunks_len n d r : chunks n d r -> length d = (n * length r)%nat.
Proof. induction 1 as [|d r l v C IH L S]; [cbn; lia|]. rewrite !app_length. cbn. nia. Qed.
Lemma chunks_one n d v : chunks n d [v] -> stands_for d v.
Proof.
  intros C. inversion C as [|d0 r0 l w C0 L S E1 E2]. destruct r0 as [|x r0]; [|destruct r0; discriminate]. injection E2 as ->.
  inversion C0 as [|d1 r1 l1 w1 C1 L1 S1 E3 E4]; [exact S|]. destruct r1; discriminate.
Qed.

(** ** A backend that has gone *)
Section Down.
  Variable configs tls : nat.
  Variable j : nat.
  Definition down (s : mst) : Prop := In j (m_tried s) /\ l_up (m_links s j) = false.
  Definition not_from (e : mev) : Prop := match e with MArrived k _ _ _ => k <> j | _ => True end.
  Definition stuck (s s' : mst) : Prop := down s' /\ exists o, m_trace s' = m_trace s ++ o /\ Forall not_from o.
  Lemma quiet_not o : Forall quiet o -> Forall not_from o. Proof. apply Forall_impl. intros [] X; cbn in *; tauto. Qed.
  Lemma stuck_here s s' o : down s -> m_tried s' = m_tried s -> l_up (m_links s' j) = l_up (m_links s j) -> m_trace s' = m_trace s ++ o -> Forall not_from o -> stuck s s'.
  Proof. intros (D1 & D2) E1 E2 T F. split; [split; congruence|eauto]. Qed.
  Lemma stuck_when id op s : good configs s -> down s -> stuck s (m_when id op (memit (MGot id op) s)).
  Proof.
    intros [G1 G2 G3 G4 G5 G6] D. unfold m_when. cbn [memit m_all m_clients m_waiting]. destruct (m_all s).
    - destruct (queue_all_spec id op (m_clients s) (memit (MGot id op) s) G2 G6) as (K & W & OM & OT & o & T & F & X). cbn zeta in *.
      apply (stuck_here s _ ([MGot id op] ++ o) D); [exact (kp_tried _ _ K)|exact (one_more_up _ _ _ _ _ (OM j))|rewrite T; cbn; now rewrite <- app_assoc|]. constructor; [exact I|]. exact (quiet_not _ (passing_quiet _ _ _ _ F)).
    - apply (stuck_here s _ [MGot id op] D); cbn; auto. constructor; [exact I|constructor].
  Qed.
  Lemma stuck_raised e s : down s -> stuck s (memit (MRaised e) s).
  Proof. intros D. apply (stuck_here s _ [MRaised e] D); auto. constructor; [exact I|constructor]. Qed.
  Lemma stuck_skip s : down s -> stuck s s.
  Proof. intros D. apply (stuck_here s _ [] D); auto. symmetry. apply app_nil_r. Qed.
  Lemma base_queue_tried id v s : m_tried (fst (base_queue id v s)) = m_tried s.
  Proof. unfold base_queue. destruct (m_conn s) as [[]|]; [destruct (toWire _)| |]; reflexivity. Qed.
  Lemma m_queue_tried id v s : m_tried (fst (m_queue id v s)) = m_tried s.
  Proof. unfold m_queue. destruct (last_response v); [|apply base_queue_tried]. cbn zeta. destruct (q_full _); [|reflexivity]. rewrite base_queue_tried. reflexivity. Qed.
  Lemma stuck_queue id v s e : not_from e -> down s -> stuck s (fst (m_queue id v (memit e s))).
  Proof.
    intros NF D. destruct (m_queue_trace id v (memit e s)) as (o & T & O & E1 & _). apply (stuck_here s _ ([e] ++ o) D).
    - rewrite m_queue_tried. reflexivity.
    - rewrite E1. reflexivity.
    - rewrite T. cbn. now rewrite <- app_assoc.
    - constructor; [exact NF|]. destruct O as [-> | (w & ->)]; [constructor|constructor; [exact I|constructor]].
  Qed.
  Lemma stuck_more s s' s'' : stuck s s' -> (down s' -> stuck s' s'') -> stuck s s''.
  Proof. intros (D & o & T & F) H. destruct (H D) as (D' & o' & T' & F'). split; [exact D'|]. exists (o ++ o'). split; [rewrite T', T; now rewrite app_assoc|]. apply Forall_app. auto. Qed.
  Lemma stuck_step s e : inv configs s -> down s -> client_stays e -> stuck s (mstep configs tls s e).
  Proof.
    intros V D CS. pose proof V as [G FR M]. pose proof D as (D1 & D2). destruct e; cbn [mstep]; try (destruct CS; fail).
    - destruct (m_conn s); [now apply stuck_skip|]. apply (stuck_here s _ [] D); auto. symmetry. apply app_nil_r.
    - destruct (tries configs tls s j0) eqn:T; [|now apply stuck_skip]. destruct (tries_new _ _ _ _ T) as (NT & LT & NN). assert (NE : j0 <> j) by congruence.
      set (s1 := mw_clients (m_clients s ++ [j0]) (mw_link j0 (mkLink true []) (mw_tried (j0 :: m_tried s) s))).
      assert (S1 : forall b : bool, stuck s (if b then mw_all true s1 else s1)).
      { intros b. split; [split|].
        - destruct b; right; exact D1.
        - assert (X : l_up (m_links s1 j) = false) by (cbn; rewrite (proj2 (Nat.eqb_neq j j0)) by congruence; exact D2). destruct b; exact X.
        - exists []. split; [destruct b; symmetry; apply app_nil_r|constructor]. }
      assert (N1 : forall b, NoDup (m_clients (if b : bool then mw_all true s1 else s1))).
      { intros b. assert (X : NoDup (m_clients s1)). { cbn. apply NoDup_snoc; [exact (g_nodup _ _ G)|]. intros I. apply NT. exact (proj1 (g_tried _ _ G _ I)). } destruct b; exact X. }
      assert (W1 : forall b, wires_new (if b : bool then mw_all true s1 else s1)).
      { intros b. assert (X : wires_new s1). { intros k b' i I. cbn in I. destruct (Nat.eqb k j0); [destruct I|]. exact (g_new _ _ G _ _ _ I). } destruct b; exact X. }
      specialize (S1 (Nat.eqb (length (m_clients s1)) configs)). specialize (N1 (Nat.eqb (length (m_clients s1)) configs)). specialize (W1 (Nat.eqb (length (m_clients s1)) configs)).
      set (s2 := if Nat.eqb (length (m_clients s1)) configs then mw_all true s1 else s1) in *. clearbody s2. destruct (m_all s2); [|exact S1]. apply (stuck_more s s2 _ S1). intros D'.
      destruct (release_spec (m_waiting s2) s2 N1 W1) as ((E1 & E2 & E3 & E4 & E5 & E6 & E7 & E8) & W & UP & OT & SL & o & TR & Q & X). cbn zeta in *.
      apply (stuck_here s2 _ o D' E2 (UP j) TR). exact (quiet_not _ Q).
    - destruct (tries configs tls s j0); [|now apply stuck_skip]. split; [split; [right; exact D1|exact D2]|]. exists [MCloseClient; MRaised (ELdap 80)]. split; [cbn; now rewrite <- app_assoc|repeat constructor].
    - destruct (m_conn s) as [[]|]; try (now apply stuck_skip). unfold m_handle. destruct msg; try (now apply stuck_raised). destruct (kind_of msg) as [k|]; [|now apply stuck_raised].
      cbn zeta. set (body := match k with RDelete | RAdd | RModifyDN | RModify | RExtended => _ | RUnbind => _ | RBind | RSearch | RCompare | RAbandon => _ end). assert (GO : stuck s body).
      { assert (RF : forall v, stuck s (match m_queue id v (memit (MGot id msg) s) with (s', Ok _) => s' | (s', Err e) => memit (MRaised e) s' end)).
        { intros v. pose proof (stuck_queue id v s (MGot id msg) I D) as X. destruct (m_queue id v (memit (MGot id msg) s)) as (s' & [u|e]); cbn [fst] in X; [exact X|]. apply (stuck_more _ _ _ X). apply stuck_raised. }
        subst body. destruct k; try (apply stuck_when; [exact G|exact D]); try apply RF.
        change (mw_unbound true (memit (MGot id msg) s)) with (memit (MGot id msg) (mw_unbound true s)). apply (stuck_more s (mw_unbound true s)).
        - apply (stuck_here s _ [] D); auto. symmetry. apply app_nil_r.
        - intros D'. apply stuck_when; [|exact D']. destruct G as [G1 G2 G3 G4 G5 G6]. split; assumption. }
      clearbody body. destruct id as [|z|]; try exact GO. destruct z; [now apply stuck_skip|exact GO|exact GO].
    - destruct (l_up (m_links s j0)) eqn:U; [|now apply stuck_skip]. assert (NE : j0 <> j) by congruence.
      unfold m_response. destruct msg; try (now apply stuck_raised). destruct (is_response msg); [|now apply stuck_raised]. destruct id as [|i|]; try (now apply stuck_raised). destruct (i =? 0); [now apply stuck_skip|].
      destruct (find _ _) as [(b & rid)|]; [|now apply stuck_raised]. pose proof (stuck_queue rid msg s (MArrived j0 i rid msg) NE D) as X. destruct (m_queue rid msg (memit (MArrived j0 i rid msg) s)) as (s' & [u|e]); cbn [fst] in X.
      + destruct (last_response msg); [|exact X]. apply (stuck_more _ _ _ X). intros D'. apply (stuck_here s' _ [] D'); auto; [|symmetry; apply app_nil_r]. cbn. rewrite (proj2 (Nat.eqb_neq j j0)) by congruence. reflexivity.
      + apply (stuck_more _ _ _ X). apply stuck_raised.
    - split; [split; [exact D1|]|].
      + cbn. destruct (Nat.eqb j j0); [reflexivity|exact D2].
      + exists []. split; [symmetry; apply app_nil_r|constructor].
    - apply (stuck_here s _ [] D); auto. symmetry. apply app_nil_r.
  Qed.
  Lemma stuck_run es : forall s, inv configs s -> down s -> Forall client_stays es -> stuck s (fold_left (mstep configs tls) es s).
  Proof.
    induction es as [|e es IH]; intros s V D F; [now apply stuck_skip|]. apply Forall_cons_iff in F as (E & F). cbn. apply (stuck_more s (mstep configs tls s e)); [now apply stuck_step|]. intros D'. apply IH; auto using inv_step.
  Qed.
  Lemma finals_from_not id o : Forall not_from o -> finals_from j id o = [].
  Proof. intros F. apply flat_map_nil. eapply Forall_impl; [|exact F]. intros [] X; try reflexivity. cbn in X. rewrite (proj2 (Nat.eqb_neq _ _) X). reflexivity. Qed.
End Down.

(** ** Requests that are refused *)
Lemma refuse_step configs tls s tag i op cs : m_conn s = Some true -> i <> 0 -> refused_op op -> exists v, ServerSpec.final_op op v /\ code_of v = VInt 53 /\
  (writable (VInt i) v -> mstep configs tls s (MRequest (OMessage tag (VInt i) op cs)) = memit (MReply (VInt i) v) (memit (MGot (VInt i) op) s)).
Proof.
  intros C NZ R. cbn [mstep]. rewrite C. unfold m_handle.
  assert (RF : forall k v, kind_of op = Some k -> (match k with RDelete | RAdd | RModifyDN | RModify | RExtended => true | _ => false end) = true -> v = fail_obj k 53 (VBytes []) -> writable (VInt i) v ->
    match kind_of op with
    | None => memit (MRaised EAssert) s
    | Some k => match VInt i with VInt 0 => s | _ => let s := memit (MGot (VInt i) op) s in
        match k with
        | RDelete | RAdd | RModifyDN | RModify | RExtended => match m_queue (VInt i) (fail_obj k 53 (VBytes [])) s with (s', Ok _) => s' | (s', Err e) => memit (MRaised e) s' end
        | RUnbind => m_when (VInt i) op (mw_unbound true s)
        | RBind | RSearch | RCompare | RAbandon => m_when (VInt i) op s
        end end
    end = memit (MReply (VInt i) v) (memit (MGot (VInt i) op) s)).
  { intros k v -> K -> W. destruct (base_queue_conn (VInt i) (fail_obj k 53 (VBytes [])) (memit (MGot (VInt i) op) s) C) as [(_ & E)|(NW & _)]; [|contradiction].
    assert (Q : m_queue (VInt i) (fail_obj k 53 (VBytes [])) (memit (MGot (VInt i) op) s) = (memit (MReply (VInt i) (fail_obj k 53 (VBytes []))) (memit (MGot (VInt i) op) s), Ok tt)).
    { unfold m_queue. destruct k; try discriminate; exact E. }
    destruct i as [|p|p]; [congruence| |]; destruct k; try discriminate; cbn zeta; rewrite Q; reflexivity. }
  destruct op; try (destruct R; fail).
  all: try (destruct k; try (destruct R; fail)).
  all: match goal with |- context [kind_of ?o] => let k := eval cbn in (kind_of o) in match k with Some ?k => exists (fail_obj k 53 (VBytes [])); split; [exact I|]; split; [reflexivity|]; intros W; exact (RF k _ eq_refl eq_refl eq_refl W) end end.
Qed.
