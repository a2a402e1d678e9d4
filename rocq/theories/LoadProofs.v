(** Proofs about loading LDIF into memory (C80). *)
From Coq Require Import Permutation.
From Verif Require Import Base BaseFacts Utf8Model DnModel DnSpec DnProofs EntryModel EntrySpec EntryProofs LdapSpec MatchModel
  UtilModel LdifModel LdifSpec LdifProofs LdifRead LdifRound InmemModel InmemSpec InmemProofs InmemHist ServerModel ServerSearch SyntaxProofs LoadModel LoadSpec.

Notation items := ServerModel.items.

(** ** The attributes that items() hands over *)
Section Items.
  Variable lower : str -> str.
  Variable oc : bool.

  Lemma octets_values e a : octets_only lower e -> In a (e_attrs e) -> values_ok (s_vals a).
  Proof. intros (H & _) I. left. apply (H a I). Qed.
  Lemma octets_bytes vs : (forall v, In v vs -> exists b, v = PBytes b) -> forall v, In v vs -> exists b, to_bytes v = Ok b.
  Proof. intros H v I. destruct (H v I) as (b & ->). exists b. reflexivity. Qed.

  Lemma oc_part_ok e : octets_only lower e -> exists l, oc_part lower oc e = Ok l /\
    (forall k vs, In (k, vs) l -> exists a, In a (e_attrs e) /\ lowv lower (s_key a) = lowv lower k /\ Permutation (s_vals a) vs) /\
    (forall a, In a (e_attrs e) -> is_oc lower (s_key a) = true -> exists k vs, In (k, vs) l /\ lowv lower (s_key a) = lowv lower k /\ Permutation (s_vals a) vs).
  Proof.
    intros O. pose proof O as (H & N). unfold oc_part.
    set (F := fun k => match dict_get lower k (e_attrs e) with
                       | Some a => match s_vals a with [] => Ok [] | _ => do vs <- sort_to_bytes (s_vals a); Ok [(k, vs)] end
                       | None => Ok [] end).
    assert (FS : forall k, (exists a vs, In a (e_attrs e) /\ lowv lower (s_key a) = lowv lower k /\ Permutation (s_vals a) vs /\ F k = Ok [(k, vs)]) \/
                           (F k = Ok [] /\ forall a, In a (e_attrs e) -> lowv lower (s_key a) <> lowv lower k)).
    { intros k. unfold F. destruct (dict_get lower k (e_attrs e)) as [a|] eqn:G.
      - left. apply dict_get_some in G as (I & E). destruct (H a I) as (_ & NE & V).
        destruct (sort_to_bytes_ok (s_vals a) (octets_bytes _ V)) as (vs & S0 & P). exists a, vs. split; [exact I|]. split; [exact E|]. split; [exact P|].
        rewrite S0. destruct (s_vals a); [now destruct NE|reflexivity].
      - right. split; [reflexivity|]. intros a I E. exact (dict_get_none lower k _ G a I E). }
    destruct (mapR_ex F (oc_keys oc)) as (l & L). { intros k _. destruct (FS k) as [(a & vs & _ & _ & _ & E)|(E & _)]; rewrite E; eauto. }
    rewrite L. cbn [bind]. exists (concat l). split; [reflexivity|]. apply mapR_F2 in L. split.
    - intros k vs I. apply in_concat in I as (x & Ix & I). destruct (F2_In_r _ _ _ _ L Ix) as (k' & _ & E).
      destruct (FS k') as [(a & ws & Ia & La & P & E')|(E' & _)]; rewrite E' in E; apply Ok_inj in E; subst x.
      + destruct I as [[= <- <-]|[]]. exists a. auto.
      + destruct I.
    - intros a I Oc. destruct (H a I) as ((kb & K) & _ & _). rewrite K in *. unfold is_oc in Oc. apply mem_In in Oc. cbn [lowv] in Oc.
      destruct Oc as [Oc|[Oc|[]]]; [discriminate|].
      assert (Io : In (PBytes (B "objectClass")) (oc_keys oc)) by (unfold oc_keys; destruct oc; cbn; auto).
      destruct (F2_In_l _ _ _ _ L Io) as (x & Ix & E). assert (Lk : lowv lower (s_key a) = lowv lower (PBytes (B "objectClass"))) by (rewrite K; cbn [lowv]; rewrite <- Oc; reflexivity).
      destruct (FS (PBytes (B "objectClass"))) as [(b & ws & Ib & Lb & P & E')|(E' & X)]; [|now destruct (X a I)].
      assert (b = a) as -> by (apply (lowkeys_inj lower (e_attrs e)); auto; congruence).
      rewrite E' in E. apply Ok_inj in E. subst x. exists (PBytes (B "objectClass")), ws. split; [apply in_concat; eexists; split; [exact Ix|now left]|].
      split; [rewrite <- Lk, K; reflexivity|exact P].
  Qed.

  Lemma other_part_ok e : octets_only lower e -> exists l, other_part lower e = Ok l /\
    (forall k vs, In (k, vs) l -> exists a, In a (e_attrs e) /\ lowv lower (s_key a) = lowv lower k /\ Permutation (s_vals a) vs) /\
    (forall a, In a (e_attrs e) -> is_oc lower (s_key a) = false -> exists k vs, In (k, vs) l /\ lowv lower (s_key a) = lowv lower k /\ Permutation (s_vals a) vs).
  Proof.
    intros O. pose proof O as (H & N). unfold other_part.
    assert (M : mapR (fun a => do b <- to_bytes (s_key a); Ok (b, (s_key a, s_vals a))) (e_attrs e) =
                mapR (fun kv : pyval * list pyval => do b <- to_bytes (fst kv); Ok (b, kv)) (map (fun a => (s_key a, s_vals a)) (e_attrs e))).
    { generalize (e_attrs e). intros l. induction l as [|a l IH]; [reflexivity|]. cbn [map mapR fst]. rewrite IH. reflexivity. }
    rewrite M. destruct (sort_bytes_ok fst (map (fun a => (s_key a, s_vals a)) (e_attrs e))) as (ks & K & P).
    { intros x I. apply in_map_iff in I as (a & <- & I). cbn. destruct (H a I) as ((k & ->) & _). exists k. reflexivity. }
    rewrite K. cbn [bind]. set (srt := map snd (sort_by (fun x y => bytes_leb (fst x) (fst y)) ks)) in *. clearbody srt.
    set (fl := List.filter (fun kv => negb (is_oc lower (fst kv))) srt).
    assert (IF : forall x, In x fl <-> exists a, In a (e_attrs e) /\ is_oc lower (s_key a) = false /\ x = (s_key a, s_vals a)).
    { intros x. unfold fl. rewrite filter_In, (perm_In _ _ x P), in_map_iff. split.
      - intros ((a & <- & I) & F). exists a. cbn [fst] in F. split; [exact I|]. split; [now apply negb_true_iff in F|reflexivity].
      - intros (a & I & F & ->). split; [eauto|]. cbn [fst]. now rewrite F. }
    destruct (mapR_ex (fun kv => do vs <- sort_values (snd kv); Ok (fst kv, vs)) fl) as (l & L).
    { intros x I. apply IF in I as (a & I & _ & ->). destruct (sort_values_ok _ (octets_values e a O I)) as (vs & S0 & _).
      cbn [fst snd]. rewrite S0. cbn. eauto. }
    exists l. split; [exact L|]. apply mapR_F2 in L. split.
    - intros k vs I. destruct (F2_In_r _ _ _ _ L I) as (x & J & E). apply IF in J as (a & Ia & F & ->). cbn [fst snd] in E.
      destruct (sort_values_ok _ (octets_values e a O Ia)) as (ws & S0 & Pv). rewrite S0 in E. cbn in E. apply Ok_inj in E.
      injection E as <- <-. exists a. auto.
    - intros a I F. destruct (F2_In_l _ _ _ (s_key a, s_vals a) L) as ((k & vs) & J & E). { apply IF. eauto. }
      cbn [fst snd] in E. destruct (sort_values_ok _ (octets_values e a O I)) as (ws & S0 & Pv). rewrite S0 in E. cbn in E. apply Ok_inj in E.
      injection E as <- <-. exists (s_key a), ws. auto.
  Qed.

  Lemma items_octets e : octets_only lower e -> exists l, items lower oc e = Ok l /\ forall d, same_attrs lower (new_entry lower d l) e.
  Proof.
    intros O. destruct (oc_part_ok e O) as (l1 & E1 & A1 & B1). destruct (other_part_ok e O) as (l2 & E2 & A2 & B2).
    exists (l1 ++ l2). unfold ServerModel.items. rewrite E1, E2. split; [reflexivity|]. intros d.
    assert (A : forall k vs, In (k, vs) (l1 ++ l2) -> exists a, In a (e_attrs e) /\ lowv lower (s_key a) = lowv lower k /\ Permutation (s_vals a) vs).
    { intros k vs I. apply in_app_or in I as [I|I]; auto. }
    assert (C : forall a, In a (e_attrs e) -> exists k vs, In (k, vs) (l1 ++ l2) /\ lowv lower (s_key a) = lowv lower k /\ Permutation (s_vals a) vs).
    { intros a I. destruct (is_oc lower (s_key a)) eqn:F; [destruct (B1 a I F) as (k & vs & J & X)|destruct (B2 a I F) as (k & vs & J & X)];
        exists k, vs; (split; [apply in_or_app; auto|exact X]). }
    split.
    - intros k. rewrite (proj1 (new_entry_spec lower d (l1 ++ l2) k k)). split.
      + intros (k' & vs & I & L). destruct (A k' vs I) as (a & Ia & La & _). exists a. split; [exact Ia|congruence].
      + intros (a & Ia & La). destruct (C a Ia) as (k' & vs & I & L & _). exists k', vs. split; [exact I|congruence].
    - intros k v. rewrite (proj2 (new_entry_spec lower d (l1 ++ l2) k v)). split.
      + intros (k' & vs & I & L & V). destruct (A k' vs I) as (a & Ia & La & P). exists a. split; [exact Ia|]. split; [congruence|]. now apply (perm_In _ _ v P).
      + intros (a & Ia & La & V). destruct (C a Ia) as (k' & vs & I & L & P). exists k', vs. split; [exact I|]. split; [congruence|]. now apply (perm_In _ _ v P).
  Qed.
End Items.

(** ** Adding the entries one after the other *)
Section Load.
  Variable lower : str -> str.
  Variable oc : bool.
  Variable C : rdn -> Prop.
  Hypothesis CC : consistent lower C.
  Variable depth : nat.
  Notation same := (same_dn lower).

  Definition rel (M : dir) (es : list entry) : Prop :=
    Forall2 (fun x e => same (fst x) (e_dn e) /\ items lower oc e = Ok (snd x)) M es.

  Lemma find_named M es d : rel M es ->
    match find (at_dn lower d) M with
    | Some x => exists e, In e es /\ same (e_dn e) d /\ same (fst x) d /\ items lower oc e = Ok (snd x)
    | None => ~ named lower es d
    end.
  Proof.
    intros R. destruct (find (at_dn lower d) M) as [x|] eqn:F.
    - apply find_some in F as (I & E). unfold at_dn in E. apply dn_eqb_spec in E.
      destruct (F2_In_l _ _ _ _ R I) as (e & Ie & S & It). exists e. split; [exact Ie|]. split; [eapply same_trans; [apply same_sym; exact S|exact E]|auto].
    - intros (e & Ie & S). destruct (F2_In_r _ _ _ _ R Ie) as (x & I & Sx & _). pose proof (find_none _ _ F x I) as Q. cbv beta in Q. unfold at_dn in Q.
      assert (same (fst x) d) as X by (eapply same_trans; eauto). apply dn_eqb_spec in X. exact (Bool.eq_true_false_abs _ X Q).
  Qed.
  Lemma exists_named M es d : rel M es -> existsb (at_dn lower d) M = true <-> named lower es d.
  Proof.
    intros R. rewrite existsb_exists. split.
    - intros (x & I & E). unfold at_dn in E. apply dn_eqb_spec in E. destruct (F2_In_l _ _ _ _ R I) as (e & Ie & S & _).
      exists e. split; [exact Ie|]. eapply same_trans; [apply same_sym; exact S|exact E].
    - intros (e & Ie & S). destruct (F2_In_r _ _ _ _ R Ie) as (x & I & Sx & _). exists x. split; [exact I|]. unfold at_dn. apply dn_eqb_spec.
      eapply same_trans; eauto.
  Qed.
  Lemma named_same es d d' : same d d' -> named lower es d -> named lower es d'.
  Proof. intros S (e & I & E). exists e. split; [exact I|]. eapply same_trans; eauto. Qed.

  Lemma load_hop h e rd p a : e_dn e = rd :: p -> items lower oc e = Ok a ->
    load_add lower oc depth h e = match do_hop lower depth (HAdd p rd a) h with (h', Ok _) => Ok h' | (_, Err x) => Err x end.
  Proof.
    intros E A. unfold load_add, do_hop. rewrite E. cbn [dn_up tl]. destruct (lookup lower depth h 0%nat p) as [r|x]; cbn [bind]; [|reflexivity].
    unfold add_child. destruct (deref h r) as [n|x]; cbn [bind]; [|reflexivity]. destruct (key_get (rdn_text rd) (n_children n)); [reflexivity|].
    rewrite A. reflexivity.
  Qed.

  Lemma add_step rt h L M before e : sim lower C rt h L M -> rel M before -> octets_only lower e -> (length (e_dn e) < depth)%nat ->
    (forall rd p, e_dn e = rd :: p -> C rd) ->
    (fits lower before e -> exists h' L' M', load_add lower oc depth h e = Ok h' /\ sim lower C rt h' L' M' /\ rel M' (before ++ [e])) /\
    (~ fits lower before e -> exists x, load_add lower oc depth h e = Err x /\
       (~ named lower before (dn_up (e_dn e)) -> x = ELdap 32) /\ (named lower before (dn_up (e_dn e)) -> e_dn e <> [] -> x = ELdap 68)).
  Proof.
    intros S R O D Crd. destruct (items_octets lower oc e O) as (a & A & _). destruct (e_dn e) as [|rd p] eqn:E.
    - split; [intros ((rd & p & Q & _) & _); rewrite E in Q; discriminate|]. intros _. cbn [dn_up tl]. pose proof S as (I & F).
      unfold load_add. rewrite E. cbn [dn_up tl]. pose proof (find_named M before [] R) as FN. pose proof (spec_find lower C h L M [] rt I F) as SF.
      destruct (lookup_root lower C CC rt h L I depth [] D) as (LK1 & LK2). destruct (find (at_dn lower []) M) as [x|].
      + destruct SF as (r & Ir & Sr & _). rewrite (LK1 r Ir Sr). cbn [bind]. exists EIndex. split; [reflexivity|]. split; [|congruence].
        intros Q. destruct FN as (e0 & I0 & S0 & _). destruct Q. exists e0. auto.
      + rewrite (LK2 SF). cbn [bind]. exists ENoSuchObject. split; [reflexivity|]. split; [reflexivity|contradiction].
    - rewrite (load_hop h e rd p a E A). pose proof (hop_step lower C CC rt h L M depth (HAdd p rd a) S) as ST.
      assert (OK : hop_ok C depth (HAdd p rd a)) by (split; [exact (Crd rd p eq_refl)|cbn [length] in D; lia]). specialize (ST OK).
      cbn [dn_up tl]. destruct (do_hop lower depth (HAdd p rd a) h) as (h' & o). cbn [spec_hop] in ST.
      pose proof (find_named M before p R) as FN. destruct (find (at_dn lower p) M) as [(q & qa)|].
      2:{ destruct ST as (-> & _). split.
          - intros ((rd' & p' & Q & Nm) & _). rewrite E in Q. injection Q as <- <-. contradiction.
          - intros _. eexists. split; [reflexivity|]. split; [reflexivity|contradiction]. }
      destruct FN as (e0 & I0 & S0 & Sq & _). cbn [fst] in Sq. assert (Nm : named lower before p) by (exists e0; auto).
      assert (SD : same (rd :: q) (rd :: p)) by (pose proof (same_refl lower [rd]) as Rr; inversion Rr; subst; constructor; assumption).
      destruct (existsb (at_dn lower (rd :: q)) M) eqn:X.
      + destruct ST as (-> & _). apply (exists_named M before _ R) in X. apply (named_same _ _ _ SD) in X. split.
        * intros (_ & N). rewrite E in N. contradiction.
        * intros _. eexists. split; [reflexivity|]. split; [intros Q; contradiction|reflexivity].
      + destruct ST as (-> & L' & S'). assert (N : ~ named lower before (rd :: p)).
        { intros Q. apply (named_same _ _ _ (same_sym lower _ _ SD)) in Q. apply (exists_named M before _ R) in Q. congruence. }
        split.
        * intros _. exists h', L', (M ++ [(rd :: q, a)]). split; [reflexivity|]. split; [exact S'|]. apply Forall2_app; [exact R|].
          constructor; [|constructor]. cbn [fst snd]. rewrite E. auto.
        * intros NF. exfalso. apply NF. split; [exists rd, p; auto|]. now rewrite E.
  Qed.
End Load.

Section Run.
  Variable lower : str -> str.
  Variable oc : bool.
  Variable C : rdn -> Prop.
  Hypothesis CC : consistent lower C.
  Variable depth : nat.
  Notation same := (same_dn lower).
  Notation rel := (rel lower oc).

  Lemma rest_run rt a : forall h L M before b, sim lower C rt h L M -> rel M before -> before <> [] -> Forall (octets_only lower) a ->
    (forall e, In e a -> (length (e_dn e) < depth)%nat) -> (forall e rd p, In e a -> e_dn e = rd :: p -> C rd) -> in_order lower (before ++ a) ->
    exists h' L' M', load_rest lower oc depth h (a ++ b) = load_rest lower oc depth h' b /\ sim lower C rt h' L' M' /\ rel M' (before ++ a).
  Proof.
    induction a as [|e a IH]; intros h L M before b S R NE O D Crd IO; [rewrite app_nil_r; exists h, L, M; auto|].
    destruct (add_step lower oc C CC depth rt h L M before e S R (Forall_inv O)) as (ST & _); [apply D; now left|intros rd p E; apply (Crd e rd p); [now left|exact E]|].
    destruct (ST (IO before e a eq_refl NE)) as (h1 & L1 & M1 & E1 & S1 & R1). cbn [app load_rest]. rewrite E1.
    replace (before ++ e :: a) with ((before ++ [e]) ++ a) in * by now rewrite <- app_assoc.
    apply (IH h1 L1 M1); auto.
    - destruct before; discriminate.
    - now apply Forall_inv_tail in O.
    - intros x I. apply D. now right.
    - intros x rd p I. apply Crd. now right.
  Qed.

  Lemma order_unique es e e' : in_order lower es -> In e es -> In e' es -> same (e_dn e) (e_dn e') -> e = e'.
  Proof.
    intros IO I J S. apply in_split in I as (l1 & l2 & ->). apply in_app_or in J as [J|[J|J]]; [|exact J|].
    - exfalso. assert (NE : l1 <> []) by (intros ->; destruct J). destruct (IO l1 e l2 eq_refl NE) as (_ & N). apply N. exists e'. split; [exact J|now apply same_sym].
    - exfalso. apply in_split in J as (l3 & l4 & ->). destruct (IO (l1 ++ e :: l3) e' l4) as (_ & N).
      + now rewrite <- app_assoc.
      + destruct l1; discriminate.
      + apply N. exists e. split; [apply in_or_app; right; now left|exact S].
  Qed.

  Lemma start_rel e a : items lower oc e = Ok a -> rel [(e_dn e, a)] [e].
  Proof. intros E. constructor; [|constructor]. split; [apply same_refl|exact E]. Qed.

  Lemma sim_exactly rt h L M es : sim lower C rt h L M -> rel M es -> Forall (octets_only lower) es -> in_order lower es ->
    (forall e, In e es -> (length (e_dn e) < depth)%nat) -> holds_exactly lower depth h es /\ tree h L.
  Proof.
    intros (I & F) R O IO D. split; [|apply (i_tree C rt h L I)]. split.
    - intros e Ie. pose proof (find_named lower oc M es (e_dn e) R) as FN. pose proof (spec_find lower C h L M (e_dn e) rt I F) as SF.
      destruct (lookup_root lower C CC rt h L I depth (e_dn e) (D e Ie)) as (LK1 & _).
      destruct (find (at_dn lower (e_dn e)) M) as [x|]; [|destruct FN; exists e; split; [exact Ie|apply same_refl]].
      destruct FN as (e1 & I1 & S1 & Sx & It). destruct SF as (c & Ic & Sc & (n & N & En)).
      assert (e = e1) as <- by (apply (order_unique es); auto; now apply same_sym).
      exists c, (new_entry lower (fst x) (snd x)). split; [now apply LK1|]. split; [exists n; auto|]. split; [exact Sx|].
      destruct (items_octets lower oc e) as (l & E & SA). { rewrite Forall_forall in O. auto. }
      rewrite E in It. apply Ok_inj in It. subst l. apply SA.
    - intros d Dd NM. pose proof (find_named lower oc M es d R) as FN. pose proof (spec_find lower C h L M d rt I F) as SF.
      destruct (lookup_root lower C CC rt h L I depth d Dd) as (_ & LK2).
      destruct (find (at_dn lower d) M) as [x|]; [|now apply LK2]. destruct FN as (e1 & I1 & S1 & _). destruct NM. exists e1. auto.
  Qed.

  Lemma load_ok es : Forall (octets_only lower) es -> rdns_ok C depth es -> es <> [] -> in_order lower es ->
    exists h L, load lower oc depth es = LDone h /\ tree h L /\ holds_exactly lower depth h es.
  Proof.
    intros O (D & Crd) NE IO. destruct es as [|e es]; [congruence|]. destruct (items_octets lower oc e (Forall_inv O)) as (a & A & _).
    cbn [load]. rewrite A. change [mkNode (new_entry lower (e_dn e) a) None []] with (start lower (e_dn e) a).
    destruct (rest_run (e_dn e) es (start lower (e_dn e) a) [0%nat] [(e_dn e, a)] [e] []) as (h & L & M & E & S & R).
    - apply start_sim.
    - now apply start_rel.
    - discriminate.
    - now apply Forall_inv_tail in O.
    - intros x I. apply D. now right.
    - intros x rd p I. now apply Crd.
    - exact IO.
    - rewrite app_nil_r in E. cbn [load_rest] in E. rewrite E. cbn [app] in R.
      destruct (sim_exactly (e_dn e) h L M (e :: es) S R O IO D) as (H & T). exists h, L. auto.
  Qed.

  Lemma load_bad a e b : Forall (octets_only lower) (a ++ e :: b) -> rdns_ok C depth (a ++ e :: b) -> a <> [] -> in_order lower a -> ~ fits lower a e ->
    exists x, load lower oc depth (a ++ e :: b) = LFailed x /\
      (~ named lower a (dn_up (e_dn e)) -> x = ELdap 32) /\ (named lower a (dn_up (e_dn e)) -> e_dn e <> [] -> x = ELdap 68).
  Proof.
    intros O (D & Crd) NE IO NF. destruct a as [|e0 a]; [congruence|]. cbn [app] in *. destruct (items_octets lower oc e0 (Forall_inv O)) as (at0 & A & _).
    cbn [load]. rewrite A. change [mkNode (new_entry lower (e_dn e0) at0) None []] with (start lower (e_dn e0) at0).
    apply Forall_inv_tail in O. apply Forall_app in O as (Oa & Ob). cbn [tl] in Crd.
    destruct (rest_run (e_dn e0) a (start lower (e_dn e0) at0) [0%nat] [(e_dn e0, at0)] [e0] (e :: b)) as (h & L & M & E & S & R).
    - apply start_sim.
    - now apply start_rel.
    - discriminate.
    - exact Oa.
    - intros x I. apply D. right. apply in_or_app. now left.
    - intros x rd p I. apply Crd. apply in_or_app. now left.
    - exact IO.
    - rewrite E. cbn [load_rest]. cbn [app] in R.
      destruct (add_step lower oc C CC depth (e_dn e0) h L M (e0 :: a) e S R (Forall_inv Ob)) as (_ & ST).
      + apply D. right. apply in_or_app. right. now left.
      + intros rd p. apply Crd. apply in_or_app. right. now left.
      + destruct (ST NF) as (x & -> & X). eauto.
  Qed.
End Run.

(** ** The entries that the parser hands over *)
Section Parse.
  Variable lower : str -> str.
  Variable io : Z -> Z -> res Z.
  Variable vio : str -> res Z.

  Lemma new_octets n data : (forall k vs, In (k, vs) data -> vs <> []) ->
    octets_only lower (new_entry lower n (map (fun kv => (PBytes (fst kv), map PBytes (snd kv))) data)).
  Proof.
    intros NE. set (its := map (fun kv => (PBytes (fst kv), map PBytes (snd kv))) data).
    assert (ND : NoDup (map (fun a => lowv lower (s_key a)) (e_attrs (new_entry lower n its)))).
    { destruct (init_loop_ok lower its [] (NoDup_nil _)) as (N & _). unfold new_entry. cbn [e_attrs]. rewrite map_map. exact N. }
    split; [|exact ND]. intros a I. destruct (new_entry_spec lower n its (s_key a) (PBytes [])) as (HK & _).
    destruct (proj1 HK) as (k & vs & J & Lk). { exists a. auto. }
    unfold its in J. apply in_map_iff in J as ((kb & vbs) & E & J). cbn [fst snd] in E. injection E as <- <-. split; [|split].
    - cbn [lowv] in Lk. destruct (s_key a); [discriminate|eauto].
    - destruct vbs as [|v vbs]; [now destruct (NE kb [] J)|].
      destruct (proj2 (proj2 (new_entry_spec lower n its (s_key a) (PBytes v)))) as (b & Ib & Lb & Vb).
      { exists (PBytes kb), (map PBytes (v :: vbs)). split; [unfold its; apply in_map_iff; exists (kb, v :: vbs); auto|]. split; [exact Lk|now left]. }
      assert (b = a) as -> by (apply (lowkeys_inj lower _ _ _ ND Ib I Lb)). intros Q. rewrite Q in Vb. destruct Vb.
    - intros v V. destruct (proj1 (proj2 (new_entry_spec lower n its (s_key a) v))) as (k' & vs & J' & _ & V'). { exists a. auto. }
      unfold its in J'. apply in_map_iff in J' as ((kb' & vbs') & E & _). injection E as <- <-. apply in_map_iff in V' as (b & <- & _). eauto.
  Qed.
  Lemma read_octets d data e : (forall k vs, In (k, vs) data -> vs <> []) -> read_entry lower io d data = Ok e -> octets_only lower e.
  Proof. intros NE H. unfold read_entry in H. apply bind_ok in H as (n & _ & H). apply Ok_inj in H. subst e. now apply new_octets. Qed.

  Lemma data_add_full k v data : (forall k vs, In (k, vs) data -> vs <> []) -> forall k' (vs' : list bytes), In (k', vs') (data_add k v data) -> vs' <> [].
  Proof.
    induction data as [|(k1 & vs1) data IH]; intros H k' vs' I; cbn [data_add] in I.
    - destruct I as [[= <- <-]|[]]. discriminate.
    - destruct (bytes_eqb k k1).
      + destruct I as [[= <- <-]|I]; [destruct vs1; discriminate|]. apply (H k' vs'). now right.
      + destruct I as [[= <- <-]|I]; [apply (H k1 vs1); now left|]. apply (IH (fun a b J => H a b (or_intror J)) k' vs' I).
  Qed.

  (** The parser's state *)
  Definition pok (s : pstate) : Prop :=
    (p_mode s = HEADER \/ p_mode s = WAIT_FOR_DN \/ p_mode s = IN_ENTRY) /\
    forall data k vs, p_data s = Some data -> In (k, vs) data -> vs <> [].
  Definition oout (x : out) : Prop :=
    (forall r, In r (fst x) -> exists e, r = REntry e /\ octets_only lower e) /\ forall s, snd x = Ok s -> pok s.

  Lemma oout_ok s : pok s -> oout (ok s).
  Proof. intros P. split; [intros r []|]. intros s' [= <-]. exact P. Qed.
  Lemma oout_fail e : oout (fail e). Proof. split; [intros r []|]. discriminate. Qed.
  Lemma oout_res {A} (r : res A) f : (forall a, r = Ok a -> oout (f a)) -> oout (with_res r f).
  Proof. intros H. destruct r as [a|e]; cbn [with_res]; [auto|apply oout_fail]. Qed.
  Lemma oout_then x f : oout x -> (forall s, pok s -> oout (f s)) -> oout (andThen x f).
  Proof.
    intros (A & S) F. destruct x as (o & [s|e]); cbn [andThen fst snd] in *.
    - specialize (F s (S s eq_refl)). destruct (f s) as (o' & r). destruct F as (A' & S'). cbn [fst snd] in *. split; [|exact S'].
      intros r0 I. apply in_app_or in I as [I|I]; auto.
    - split; [exact A|discriminate].
  Qed.

  Lemma wait_octets s line : pok s -> oout (state_WAIT_FOR_DN false s line).
  Proof.
    intros P. unfold state_WAIT_FOR_DN. destruct (p_dn s), (p_data s); try apply oout_fail. destruct line as [|c r]; [now apply oout_ok|].
    apply oout_res. intros kv _. destruct (bytes_eqb _ _); [|apply oout_fail]. apply oout_ok. split; [cbn; auto|].
    cbn. intros data k vs [= <-] [].
  Qed.
  Lemma logical_octets s line : pok s -> oout (logicalLineReceived lower io vio false s line).
  Proof.
    intros P. pose proof P as (M & D). unfold logicalLineReceived. destruct (starts_with (B "#") line); [now apply oout_ok|].
    destruct M as [->|[->| ->]].
    - unfold state_HEADER. apply oout_res. intros kv _. destruct (negb _).
      + apply wait_octets. split; [cbn; auto|exact D].
      + destruct (py_int vio _) as [v|e]; [|destruct e; apply oout_fail]. destruct (1 <? v); [apply oout_fail|]. apply oout_ok. split; [cbn; auto|exact D].
    - now apply wait_octets.
    - unfold state_IN_ENTRY. destruct (p_dn s) as [d|], (p_data s) as [data|] eqn:PD; try apply oout_fail. destruct line as [|c r].
      + apply oout_res. intros e E. split.
        * intros r [<-|[]]. exists e. split; [reflexivity|]. apply (read_octets d data e); [|exact E]. intros k vs. now apply D.
        * cbn [snd]. intros s' [= <-]. split; [cbn; auto|]. cbn. discriminate.
      + apply oout_res. intros (k & v) _. apply oout_ok. split; [exact (proj1 P)|]. cbn. intros data' k' vs' [= <-] I.
        apply (data_add_full k v data) with (k' := k'); [|exact I]. intros a b. now apply D.
  Qed.
  Lemma pok_last l s : pok s -> pok (set_last l s).
  Proof. intros (M & D). split; [exact M|exact D]. Qed.
  Lemma line_octets s line : pok s -> oout (lineReceived lower io vio false s line).
  Proof.
    intros P. unfold lineReceived. destruct (starts_with [SP] line).
    - destruct (p_last s); [apply oout_ok, pok_last, P|apply oout_fail].
    - apply oout_then.
      + destruct (p_last s); [now apply logical_octets|now apply oout_ok].
      + intros s' P'. destruct line as [|c r]; [|apply oout_ok, pok_last, P']. apply oout_then; [apply logical_octets, pok_last, P'|].
        intros s2 P2. apply oout_ok, pok_last, P2.
  Qed.
  Lemma lines_octets n : forall buf s, pok s ->
    (forall r, In r (fst (recv_lines lower io vio false n buf s)) -> exists e, r = REntry e /\ octets_only lower e) /\
    forall c, snd (recv_lines lower io vio false n buf s) = Ok c -> pok (snd c).
  Proof.
    induction n as [|n IH]; intros buf s P; cbn [recv_lines]; [split; [intros r []|discriminate]|].
    destruct buf as [|b buf]; [split; [intros r []|intros c [= <-]; exact P]|].
    destruct (split1 NL (b :: buf)) as [(line & rest)|]; [|destruct (MAX_LENGTH + 1 <=? _); (split; [intros r []|]); [discriminate|intros c [= <-]; exact P]].
    destruct (MAX_LENGTH <? zlen line); [split; [intros r []|discriminate]|]. destruct (line_octets s line P) as (A & S).
    destruct (lineReceived lower io vio false s line) as (o & [s'|e]); cbn [fst snd] in *; [|split; [exact A|discriminate]].
    destruct (IH rest s' (S s' eq_refl)) as (A' & S'). destruct (recv_lines lower io vio false n rest s') as (o' & r). cbn [fst snd] in *.
    split; [|exact S']. intros r0 I. apply in_app_or in I as [I|I]; auto.
  Qed.
  Lemma feed_octets chunks : forall c, pok (snd c) -> forall r, In r (fst (feed lower io vio false c chunks)) -> exists e, r = REntry e /\ octets_only lower e.
  Proof.
    induction chunks as [|d chunks IH]; intros c P r I; cbn [feed] in I; [destruct I|]. unfold dataReceived in I.
    destruct (lines_octets (S (length (fst c ++ d))) (fst c ++ d) (snd c) P) as (A & S0).
    destruct (recv_lines lower io vio false (S (length (fst c ++ d))) (fst c ++ d) (snd c)) as (o & [c'|e]); cbn [fst snd] in *; [|now apply A].
    pose proof (IH c' (S0 c' eq_refl)) as IH'. destruct (feed lower io vio false c' chunks) as (o' & x). cbn [fst] in *. apply in_app_or in I as [I|I]; auto.
  Qed.
  Lemma parse_octets chunks r : In r (fst (parse lower io vio false chunks)) -> exists e, r = REntry e /\ octets_only lower e.
  Proof.
    intros I. assert (P : pok (snd (@nil byte, p0))). { split; [cbn; auto|]. cbn. discriminate. }
    unfold parse in I. pose proof (feed_octets chunks ([], p0) P r) as H. destruct (feed lower io vio false ([], p0) chunks) as (o & [c|e]); cbn [fst] in *; auto.
  Qed.

  Lemma parse_text oc depth text es : parse lower io vio false [text] = (map REntry es, Ok tt) ->
    fromLDIFFile lower io vio oc depth text = load lower oc depth es /\ Forall (octets_only lower) es.
  Proof.
    intros E. split.
    - assert (E' : parse lower io vio false (match text with [] => [] | _ => [text] end) = (map REntry es, Ok tt)) by (destruct text; [vm_compute in E; discriminate|exact E]).
      unfold fromLDIFFile. rewrite E'. f_equal. unfold entries. rewrite map_map. clear. induction es as [|e es IH]; [reflexivity|]. cbn [map concat app]. now rewrite IH.
    - apply Forall_forall. intros e I. destruct (parse_octets [text] (REntry e)) as (e' & [= ->] & O); [rewrite E; now apply in_map|exact O].
  Qed.
  Lemma parse_records text rs : parse lower io vio false [text] = (rs, Ok tt) -> exists es, rs = map REntry es.
  Proof.
    intros E. assert (H : forall r, In r rs -> exists e, r = REntry e).
    { intros r I. destruct (parse_octets [text] r) as (e & -> & _); [now rewrite E|eauto]. }
    clear E. induction rs as [|r rs IH]; [exists []; reflexivity|]. destruct (H r (or_introl eq_refl)) as (e & ->).
    destruct IH as (es & ->); [intros r I; apply H; now right|]. exists (e :: es). reflexivity.
  Qed.
End Parse.
