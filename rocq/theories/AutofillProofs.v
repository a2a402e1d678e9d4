(** Proofs about autofilling entries. *)
From Coq Require Import Permutation.
From Verif Require Import Base BaseFacts Utf8Model Utf8Proofs DnModel DnSpec EntryModel EntrySpec EntryProofs SortFacts DeltaProofs DeltaModel UtilModel UtilProofs LdifModel PwSpec PwProofs
  SyntaxModel SyntaxSpec AutofillModel AutofillSpec.

Section Autofill.
  Variable lower : str -> str.
  Hypothesis L : forall s, ascii s -> lower s = ascii_lower s.
  Variable oc_first : bool.
  Variable io : str -> res Z.
  Variable iob : bytes -> res Z.

  Notation dget k c := (dict_get lower k (e_attrs (y_entry c))).
  Notation nm u := (PStr (num_name u)).
  Notation wanted := (wanted lower io iob).
  Notation notify_all := (notify_all lower io iob).
  Notation a_setitem := (a_setitem lower io iob).
  Notation a_set := (a_set lower io iob).
  Notation follows := (follows lower io iob).
  Notation has_number := (has_number lower io iob).
  Notation shows := (shows lower).
  Notation other_name := (other_name lower).
  Notation edits := (edits lower).

  Definition all_names : list str := id_names ++ num_names.
  Lemma low_name t : In t (all_names ++ [S_ "objectClass"] ++ map fst samba_defaults ++ map fst (sam_defaults [] (Some 0)) ++ [S_ "loginShell"]) -> lower t = ascii_lower t.
  Proof.
    intros I. apply L. unfold ascii. rewrite Forall_forall. apply (proj1 (Forall_forall (fun t => forall c, In c t -> 0 <= c < 128) _) ) with (2 := I).
    clear. assert (X : forallb (fun t => forallb (fun c => (0 <=? c) && (c <? 128)) t)
      (all_names ++ [S_ "objectClass"] ++ map fst samba_defaults ++ map fst (sam_defaults [] (Some 0)) ++ [S_ "loginShell"]) = true) by (vm_compute; reflexivity).
    rewrite forallb_forall in X. apply Forall_forall. intros t It c Ic. specialize (X t It). rewrite forallb_forall in X. specialize (X c Ic). lia.
  Qed.
  Lemma low_ne t t' : In t (all_names ++ map fst samba_defaults ++ map fst (sam_defaults [] (Some 0)) ++ [S_ "loginShell"]) -> In t' all_names -> t <> t' -> lowv lower (PStr t) <> lowv lower (PStr t').
  Proof.
    intros I I' N E. cbn in E. rewrite !low_name in E; [| apply in_app_iff; now left| rewrite !in_app_iff in *; tauto].
    assert (X : forallb (fun t => forallb (fun t' => negb (pyval_eqb (PStr (ascii_lower t)) (PStr (ascii_lower t'))) || pyval_eqb (PStr t) (PStr t')) all_names)
      (all_names ++ map fst samba_defaults ++ map fst (sam_defaults [] (Some 0)) ++ [S_ "loginShell"]) = true) by (vm_compute; reflexivity).
    rewrite forallb_forall in X. specialize (X t I). rewrite forallb_forall in X. specialize (X t' I'). rewrite E, pyval_eqb_refl in X. cbn [negb orb] in X.
    destruct (pyval_eqb_spec (PStr t) (PStr t')); congruence.
  Qed.
  Lemma nm_in u : In (num_name u) all_names. Proof. destruct u; cbn; tauto. Qed.
  Lemma nm_ne u u' : u <> u' -> num_name u <> num_name u'. Proof. destruct u, u'; intros N E; try congruence; vm_compute in E; discriminate. Qed.
  Lemma id_in u f n k v : id_of u f n = Some (k, v) -> In k id_names.
  Proof. destruct f as [| |sid [x|]], u; cbn; intros E; try discriminate; injection E as <- _; tauto. Qed.
  Lemma id_all u f n k v : id_of u f n = Some (k, v) -> In k all_names.
  Proof. intros E. apply in_app_iff. left. exact (id_in _ _ _ _ _ E). Qed.
  Lemma id_num k u : In k id_names -> k <> num_name u.
  Proof. destruct u; cbn; intros I E; rewrite E in I; repeat destruct I as [I|I]; try (vm_compute in I; discriminate); contradiction. Qed.
  (** The identifiers of users and of groups are different attributes. *)
  Lemma id_sep u u' f f' n n' k v k' v' : u <> u' -> id_of u f n = Some (k, v) -> id_of u' f' n' = Some (k', v') -> k <> k'.
  Proof.
    intros N E E' X. subst k'. destruct f as [| |sid [x|]], f' as [| |sid' [x'|]], u, u'; cbn in E, E'; try discriminate; try congruence;
      injection E as <- _; injection E' as X _; vm_compute in X; discriminate.
  Qed.
  Lemma id_same u sid fixed f f' n k v v' : of_domain sid fixed f -> of_domain sid fixed f' -> id_of u f n = Some (k, v) -> id_of u f' n = Some (k, v') -> v = v'.
  Proof.
    intros D D' E E'. destruct f as [| |s x], f' as [| |s' x']; try (destruct u; discriminate); [congruence| | |cbn in D, D'; destruct D as (-> & ->), D' as (-> & ->); congruence];
      destruct u; cbn in E, E'; try (destruct x; try discriminate); try (destruct x'; try discriminate); injection E as <- _; injection E' as X _; vm_compute in X; discriminate.
  Qed.

  (** *** What the fillers want *)
  Lemma wanted_other f key c : (forall u, key <> nm u) -> wanted f key c = Ok None.
  Proof.
    intros N. unfold wanted, AutofillModel.wanted.
    destruct (pyval_eqb_spec key (PStr (S_ "uidNumber"))) as [E|_]; [elim (N true E)|].
    destruct (pyval_eqb_spec key (PStr (S_ "gidNumber"))) as [E|_]; [elim (N false E)|].
    now destruct f as [| |? []].
  Qed.
  Lemma wanted_num u f c : wanted f (nm u) c =
    if match id_of u f 0 with Some _ => true | None => false end then do n <- the_number lower io iob (nm u) c; Ok (id_of u f n) else Ok None.
  Proof.
    assert (A : forall n, n * 2 + 1000 = 2 * n + 1000) by (intros; lia). assert (G : forall n, n * 2 + 1001 = 2 * n + 1001) by (intros; lia).
    destruct f as [| |sid [x|]], u; unfold wanted, AutofillModel.wanted; cbn [num_name id_of]; try reflexivity;
      rewrite ?pyval_eqb_refl; try change (pyval_eqb (PStr (S_ "gidNumber")) (PStr (S_ "uidNumber"))) with false; cbn iota;
      try (destruct (the_number lower io iob _ c); cbn [bind]; [rewrite ?A, ?G|]; reflexivity); reflexivity.
  Qed.
  Lemma the_number_get u c a : y_deleted c = false -> at_ lower c (num_name u) = Some a ->
    the_number lower io iob (nm u) c = match s_vals a with [v] => num io iob v | _ => Err EAssert end.
  Proof.
    unfold at_. intros D G.
    assert (F : find_key lower (nm u) (y_entry c) = Ok (Some a)).
    { unfold find_key. replace (get_strings (nm u)) with (Ok [nm u; PBytes (if u then B "uidNumber" else B "gidNumber")] : res (list pyval)) by (destruct u; vm_compute; reflexivity).
      cbn [bind fold_right]. now rewrite G. }
    unfold the_number, a_has, a_get, has_key, getitem, check. rewrite D, F. reflexivity.
  Qed.
  Lemma the_number_has u c n m : the_number lower io iob (nm u) c = Ok n -> has_number c (num_name u) m -> n = m.
  Proof.
    intros T (a & v & G & V & E).
    assert (D : y_deleted c = false) by (destruct (y_deleted c) eqn:D; [unfold the_number, a_has, check in T; rewrite D in T; discriminate|reflexivity]).
    rewrite (the_number_get u c a D G), V, E in T. now apply Ok_inj in T.
  Qed.
  Lemma the_number_none u c x : the_number lower io iob (nm u) c = Err x -> y_deleted c = true \/ forall n, ~ has_number c (num_name u) n.
  Proof.
    intros T. destruct (y_deleted c) eqn:D; [now left|right]. intros n (a & v & G & V & E). rewrite (the_number_get u c a D G), V, E in T. discriminate.
  Qed.

  Lemma notify_other set fs key c : (forall u, key <> nm u) -> notify_all set fs key c = (c, Ok tt).
  Proof. intros N. induction fs as [|f r IH]; cbn [AutofillModel.notify_all]; [reflexivity|]. now rewrite wanted_other. Qed.
  Lemma setitem_plain n fs k s c : (forall u, k <> nm u) -> a_setitem (S n) fs k s c = c_setitem lower k s c.
  Proof.
    intros N. cbn [AutofillModel.a_setitem]. unfold c_setitem. destruct (do _ <- check c; can_remove_all k c); [|reflexivity]. now rewrite notify_other.
  Qed.

  (** *** Reading *)
  Lemma dget_set k s c k' : dget k' (fst (c_setitem lower k s c)) =
    match snd (c_setitem lower k s c) with Ok _ => if pyval_eqb (lowv lower k') (lowv lower k) then Some (mkSet k (set_of (read1 s))) else dget k' c | Err _ => dget k' c end.
  Proof.
    unfold c_setitem. destruct (do _ <- check c; can_remove_all k c); cbn [fst snd journal with_entry y_entry setitem e_attrs]; [|reflexivity].
    destruct (pyval_eqb_spec (lowv lower k') (lowv lower k)) as [E|N].
    - rewrite (dict_get_ext lower k' k) by exact E. apply dict_get_set_same.
    - now apply dict_get_set_other.
  Qed.
  Lemma dget_del k l k' : dict_get lower k' (dict_del lower k l) = if pyval_eqb (lowv lower k') (lowv lower k) then None else dict_get lower k' l.
  Proof.
    unfold dict_get, dict_del. induction l as [|a l IH]; cbn; [now destruct (pyval_eqb _ _)|].
    destruct (same_key_spec lower k a) as [S|S]; cbn.
    - rewrite IH. destruct (pyval_eqb_spec (lowv lower k') (lowv lower k)) as [E|N]; [reflexivity|].
      destruct (same_key_spec lower k' a) as [S'|S']; [congruence|reflexivity].
    - destruct (same_key_spec lower k' a) as [S'|S']; [|exact IH].
      destruct (pyval_eqb_spec (lowv lower k') (lowv lower k)) as [E|N]; [congruence|reflexivity].
  Qed.
  Lemma dget_upd k f l k' : lowv lower k' <> lowv lower k -> dict_get lower k' (dict_upd lower k f l) = dict_get lower k' l.
  Proof.
    intros N. unfold dict_get. induction l as [|a l IH]; cbn; [reflexivity|].
    destruct (same_key_spec lower k a) as [S|S]; cbn.
    - destruct (same_key_spec lower k' (mkSet (s_key a) (f (s_vals a)))) as [S'|S']; cbn in S'; [congruence|].
      destruct (same_key_spec lower k' a) as [S''|S'']; [congruence|reflexivity].
    - destruct (same_key lower k' a); [reflexivity|exact IH].
  Qed.

  (** Everything but the identifiers of one kind stays. *)
  Definition keep (u : bool) (c c' : cent) : Prop :=
    y_dn c' = y_dn c /\ y_deleted c' = y_deleted c /\
    forall k, (forall f n t v, id_of u f n = Some (t, v) -> lowv lower k <> lowv lower (PStr t)) -> dget k c' = dget k c.
  Lemma keep_refl u c : keep u c c. Proof. split; [reflexivity|]. split; reflexivity. Qed.
  Lemma keep_trans u c1 c2 c3 : keep u c1 c2 -> keep u c2 c3 -> keep u c1 c3.
  Proof. intros (A1 & A2 & A3) (B1 & B2 & B3). split; [congruence|]. split; [congruence|]. intros k N. now rewrite B3, A3. Qed.
  Lemma keep_num u u' c c' : keep u c c' -> at_ lower c' (num_name u') = at_ lower c (num_name u').
  Proof. intros (_ & _ & K). apply K. intros f n t v E. apply low_ne; [apply in_app_iff; left; apply nm_in|exact (id_all _ _ _ _ _ E)|]. intros X. exact (id_num t u' (id_in _ _ _ _ _ E) (eq_sym X)). Qed.
  Lemma keep_number u u' c c' n : keep u c c' -> has_number c' (num_name u') n <-> has_number c (num_name u') n.
  Proof. intros K. unfold AutofillSpec.has_number. now rewrite (keep_num u u' c c' K). Qed.
  Lemma keep_other_id u u' c c' f n k v : u <> u' -> keep u c c' -> id_of u' f n = Some (k, v) -> shows c' k v <-> shows c k v.
  Proof.
    intros N (_ & _ & K) E. unfold AutofillSpec.shows, at_. rewrite K; [reflexivity|]. intros f' n' t v' E'.
    apply low_ne; [apply in_app_iff; left; exact (id_all _ _ _ _ _ E)|exact (id_all _ _ _ _ _ E')|].
    intros X. subst t. exact (id_sep _ _ _ _ _ _ _ _ _ _ N E' E eq_refl).
  Qed.
  Lemma set_of_one v : set_of [v] = [v]. Proof. reflexivity. Qed.

  Definition rdn_free (c : cent) : Prop := forall r rest x, y_dn c = r :: rest -> In x r -> ~ In (a_type x) id_names.
  Lemma free_remove k c : rdn_free c -> In k id_names -> y_deleted c = false -> y_dn c <> [] -> (do _ <- check c; can_remove_all (PStr k) c) = Ok tt.
  Proof.
    intros F I D N. unfold can_remove_all, check. rewrite D. cbn [bind]. destruct (y_dn c) as [|r rest] eqn:E; [now elim N|].
    destruct (existsb _ r) eqn:X; [|reflexivity]. apply existsb_exists in X. destruct X as (x & Ix & X).
    destruct (pyval_eqb_spec (PStr (a_type x)) (PStr k)) as [Y|]; [|discriminate]. injection Y as Y. elim (F r rest x E Ix). now rewrite Y.
  Qed.

  (** What notifying about a number does. *)
  Lemma notify_num u sid fixed n fs fs' : forall c c' r, Forall (of_domain sid fixed) fs' -> rdn_free c ->
    notify_all (a_setitem (S n) fs) fs' (nm u) c = (c', r) ->
    keep u c c' /\
    (forall f m k v, of_domain sid fixed f -> has_number c (num_name u) m -> id_of u f m = Some (k, v) -> shows c k v -> shows c' k v) /\
    match r with
    | Ok _ => forall f m k v, In f fs' -> has_number c (num_name u) m -> id_of u f m = Some (k, v) -> shows c' k v
    | Err _ => y_deleted c = true \/ y_dn c = [] \/ forall m, ~ has_number c (num_name u) m
    end /\
    (exists xs, Forall own_edit xs /\ c' = edits xs c) /\
    forall k, (forall f n t v, In f fs' -> id_of u f n = Some (t, v) -> lowv lower k <> lowv lower (PStr t)) -> dget k c' = dget k c.
  Proof.
    induction fs' as [|f0 fs' IH]; intros c c' r D F E; cbn [AutofillModel.notify_all] in E.
    - injection E as <- <-. split; [apply keep_refl|]. split; [auto|]. split; [intros ? ? ? ? []|]. split; [exists []; split; [constructor|reflexivity]|reflexivity].
    - inversion D as [|? ? D0 D']; subst. rewrite wanted_num in E.
      destruct (id_of u f0 0) as [kv0|] eqn:I0.
      2:{ destruct (IH c c' r D' F E) as (K & P & R & X & Y). split; [exact K|]. split; [exact P|]. split; [|split; [exact X|intros k Nk; apply Y; intros f m t v If; apply Nk; now right]].
          destruct r; [|exact R]. intros f m k v [<-|I] H1 H2; [|now apply (R f m)].
          destruct f0 as [| |s [y|]], u; cbn in H2, I0; discriminate. }
      destruct (the_number lower io iob (nm u) c) as [m0|x] eqn:T; cbn [bind] in E.
      2:{ injection E as <- <-. split; [apply keep_refl|]. split; [auto|]. split; [|split; [exists []; split; [constructor|reflexivity]|reflexivity]].
          destruct (the_number_none u c x T) as [H|H]; auto. }
      destruct (id_of u f0 m0) as [[k0 v0]|] eqn:I1; [|destruct f0 as [| |s [y|]], u; cbn in I1, I0; discriminate].
      assert (N0 : forall u', PStr k0 <> nm u') by (intros u' Q; injection Q as Q; exact (id_num k0 u' (id_in _ _ _ _ _ I1) Q)).
      rewrite setitem_plain in E by exact N0.
      assert (DD : y_deleted c = false).
      { destruct (y_deleted c) eqn:Q; [|reflexivity]. unfold the_number, a_has, check in T. rewrite Q in T. discriminate. }
      destruct (y_dn c) as [|rr rest] eqn:DN.
      { unfold c_setitem, can_remove_all, check in E. rewrite DD, DN in E. cbn in E. injection E as <- <-.
        split; [apply keep_refl|]. split; [auto|]. split; [auto|]. split; [exists []; split; [constructor|reflexivity]|reflexivity]. }
      assert (W : c_setitem lower (PStr k0) (Listed [PStr v0]) c =
        (journal (new_delta MReplace (PStr k0) [PStr v0]) (with_entry (setitem lower (PStr k0) [PStr v0] (y_entry c)) c), Ok tt)).
      { unfold c_setitem. rewrite (free_remove k0 c F (id_in _ _ _ _ _ I1) DD); [reflexivity|]. rewrite DN. discriminate. }
      pose proof (dget_set (PStr k0) (Listed [PStr v0]) c) as G. rewrite W in G. cbn [fst snd] in G.
      rewrite W in E. set (c1 := journal (new_delta MReplace (PStr k0) [PStr v0]) (with_entry (setitem lower (PStr k0) [PStr v0] (y_entry c)) c)) in *.
      assert (K1 : keep u c c1).
      { split; [reflexivity|]. split; [reflexivity|]. intros k N. rewrite G. destruct (pyval_eqb_spec (lowv lower k) (lowv lower (PStr k0))) as [Q|]; [|reflexivity]. elim (N _ _ _ _ I1 Q). }
      assert (S1 : shows c1 k0 v0) by (exists (mkSet (PStr k0) [PStr v0]); split; [unfold at_; rewrite G, pyval_eqb_refl; reflexivity|reflexivity]).
      assert (F1 : rdn_free c1) by exact F.
      destruct (IH c1 c' r D' F1 E) as (K & P & R & (xs & OX & EX) & Y).
      assert (P1 : forall f m k v, of_domain sid fixed f -> has_number c (num_name u) m -> id_of u f m = Some (k, v) -> shows c k v -> shows c1 k v).
      { intros f m k v Df H1 H2 (a & A1 & A2). assert (m0 = m) by (eapply the_number_has; eauto). subst m.
        destruct (list_eq_dec Z.eq_dec k k0) as [->|NK]; [now rewrite (id_same u sid fixed f f0 m0 k0 v v0 Df D0 H2 I1)|].
        exists a. split; [|exact A2]. unfold at_ in *. rewrite G. destruct (pyval_eqb_spec (lowv lower (PStr k)) (lowv lower (PStr k0))) as [Q|]; [|exact A1].
        elim (low_ne k k0 ltac:(apply in_app_iff; left; exact (id_all _ _ _ _ _ H2)) (id_all _ _ _ _ _ I1) NK Q). }
      assert (HN : forall m, has_number c1 (num_name u) m <-> has_number c (num_name u) m) by (intros; apply (keep_number u u c c1 m K1)).
      split; [exact (keep_trans _ _ _ _ K1 K)|]. split; [intros f m k v Df H1 H2 H3; apply (P f m k v Df); [now apply HN|exact H2|now apply (P1 f m)]|].
      split; [|split].
      + destruct r as [[]|x].
        * intros f m k v [<-|If] H1 H2; [|apply (R f m k v If); [now apply HN|exact H2]].
          assert (m0 = m) by (eapply the_number_has; eauto). subst m. rewrite I1 in H2. injection H2 as <- <-.
          apply (P f0 m0 k0 v0 D0); [now apply HN|exact I1|exact S1].
        * destruct R as [Q|[Q|Q]]; [left; exact Q|right; left; change (y_dn c1) with (y_dn c) in Q; congruence|right; right; intros m H; apply (Q m); now apply HN].
      + exists (CSet (PStr k0) (Listed [PStr v0]) :: xs). split; [constructor; [now exists u, f0, m0, k0, v0|exact OX]|].
        unfold AutofillSpec.edits. cbn [fold_left c_edit]. rewrite W. exact EX.
      + intros k Nk. rewrite Y by (intros f m t v If; apply Nk; now right). rewrite G.
        destruct (pyval_eqb_spec (lowv lower k) (lowv lower (PStr k0))) as [Q|]; [|reflexivity]. elim (Nk _ _ _ _ (or_introl eq_refl) I1 Q).
  Qed.
  Lemma edits_app xs ys c : edits (xs ++ ys) c = edits ys (edits xs c). Proof. apply fold_left_app. Qed.

  (** The same with a journal: every filler's identifier is journaled, in order. *)
  Lemma notify_journal u n fs m fs' : forall c r rest, y_deleted c = false -> y_dn c = r :: rest -> rdn_free c -> has_number c (num_name u) m ->
    exists c', notify_all (a_setitem (S n) fs) fs' (nm u) c = (c', Ok tt) /\
      y_journal c' = y_journal c ++ flat_map (fun f => match id_of u f m with Some (k, v) => [new_delta MReplace (PStr k) [PStr v]] | None => [] end) fs'.
  Proof.
    induction fs' as [|f0 fs' IH]; intros c r rest D DN F H; cbn [AutofillModel.notify_all flat_map].
    - exists c. split; [reflexivity|]. symmetry. apply app_nil_r.
    - rewrite wanted_num. pose proof H as H'. destruct H as (a & w & G & V & E0).
      rewrite (the_number_get u c a D G), V, E0. cbn [bind].
      destruct (id_of u f0 0) as [kv|] eqn:I0.
      2:{ destruct (IH c r rest D DN F H') as (c' & C & J). exists c'. split; [exact C|]. rewrite J. destruct f0 as [| |s [y|]], u; cbn in I0 |- *; try discriminate; reflexivity. }
      destruct (id_of u f0 m) as [[k0 v0]|] eqn:I1; [|destruct f0 as [| |s [y|]], u; cbn in I1, I0; discriminate].
      rewrite setitem_plain by (intros u' Q; injection Q as Q; exact (id_num k0 u' (id_in _ _ _ _ _ I1) Q)).
      assert (W : c_setitem lower (PStr k0) (Listed [PStr v0]) c =
        (journal (new_delta MReplace (PStr k0) [PStr v0]) (with_entry (setitem lower (PStr k0) [PStr v0] (y_entry c)) c), Ok tt)).
      { unfold c_setitem. rewrite (free_remove k0 c F (id_in _ _ _ _ _ I1) D); [reflexivity|]. rewrite DN. discriminate. }
      pose proof (dget_set (PStr k0) (Listed [PStr v0]) c) as Gs. rewrite W in Gs |- *. cbn [fst snd] in Gs.
      set (c1 := journal (new_delta MReplace (PStr k0) [PStr v0]) (with_entry (setitem lower (PStr k0) [PStr v0] (y_entry c)) c)) in *.
      assert (K1 : keep u c c1).
      { split; [reflexivity|]. split; [reflexivity|]. intros k N. rewrite Gs. destruct (pyval_eqb_spec (lowv lower k) (lowv lower (PStr k0))) as [Q|]; [|reflexivity]. elim (N _ _ _ _ I1 Q). }
      destruct (IH c1 r rest D DN F (proj2 (keep_number u u c c1 m K1) H')) as (c' & C & J). exists c'. split; [exact C|]. rewrite J.
      subst c1. cbn [journal y_journal with_entry]. now rewrite <- app_assoc.
  Qed.

  (** *** Following *)
  Lemma follows_get f c c' : (forall u, at_ lower c' (num_name u) = at_ lower c (num_name u)) ->
    (forall u n k v, id_of u f n = Some (k, v) -> at_ lower c' k = at_ lower c k) -> follows f c -> follows f c'.
  Proof.
    intros N I H u n k v (a & w & G & V & E) Id. rewrite N in G. destruct (H u n k v (ex_intro _ a (ex_intro _ w (conj G (conj V E)))) Id) as (b & B1 & B2).
    exists b. split; [rewrite (I _ _ _ _ Id); exact B1|exact B2].
  Qed.
  Lemma notify_pres u sid fixed n fs fs' c c' r f : Forall (of_domain sid fixed) fs' -> rdn_free c -> of_domain sid fixed f ->
    notify_all (a_setitem (S n) fs) fs' (nm u) c = (c', r) -> follows f c -> follows f c'.
  Proof.
    intros D F Df E H u' m k v Hn Id. destruct (notify_num u sid fixed n fs fs' c c' r D F E) as (K & P & _).
    apply (keep_number u u' c c' m K) in Hn. destruct (bool_dec u u') as [<-|N].
    - apply (P f m k v Df Hn Id). exact (H u m k v Hn Id).
    - apply (keep_other_id u u' c c' f m k v N K Id). exact (H u' m k v Hn Id).
  Qed.
  Definition spelled (c : cent) : Prop := forall b u, at_ lower c (num_name u) = Some b -> s_key b = nm u.
  Lemma other_not k u : other_name k -> k <> nm u.
  Proof. intros O ->. apply (O (num_name u)); [apply nm_in|reflexivity]. Qed.
  Lemma other_num k u : other_name k -> pyval_eqb (lowv lower (nm u)) (lowv lower k) = false.
  Proof. intros O. destruct (pyval_eqb_spec (lowv lower (nm u)) (lowv lower k)) as [E|]; [|reflexivity]. elim (O (num_name u) (nm_in u)). now symmetry. Qed.
  Lemma other_id k t : other_name k -> In t id_names -> pyval_eqb (lowv lower (PStr t)) (lowv lower k) = false.
  Proof. intros O I. destruct (pyval_eqb_spec (lowv lower (PStr t)) (lowv lower k)) as [E|]; [|reflexivity]. elim (O t); [apply in_app_iff; now left|now symmetry]. Qed.

  (** What one covered edit, or one start, does. *)
  Definition fine (sid : str) (fixed : option Z) (P : cedit -> Prop) (fs : list filler) (c c' : cent) : Prop :=
    y_dn c' = y_dn c /\ (spelled c -> spelled c') /\
    (forall f, In f fs -> of_domain sid fixed f -> follows f c -> follows f c') /\
    exists xs, Forall (fun x => own_edit x \/ P x) xs /\ c' = edits xs c.
  Lemma fine_refl sid fixed P fs c : fine sid fixed P fs c c.
  Proof. split; [reflexivity|]. split; [auto|]. split; [auto|]. exists []. split; [constructor|reflexivity]. Qed.
  Lemma fine_trans sid fixed (P Q R : cedit -> Prop) fs c1 c2 c3 : (forall x, P x -> R x) -> (forall x, Q x -> R x) ->
    fine sid fixed P fs c1 c2 -> fine sid fixed Q fs c2 c3 -> fine sid fixed R fs c1 c3.
  Proof.
    intros PR QR (A1 & A2 & A3 & xs & A4 & A5) (B1 & B2 & B3 & ys & B4 & B5). split; [congruence|]. split; [auto|]. split; [auto|].
    exists (xs ++ ys). split; [|now rewrite edits_app, <- A5].
    apply Forall_app. split; (eapply Forall_impl; [|eassumption]); intros x [H|H]; auto.
  Qed.

  Lemma fine_set_num sid fixed fs u s c c' r : Forall (of_domain sid fixed) fs -> rdn_free c ->
    a_set fs (nm u) s c = (c', r) -> fine sid fixed (fun x => x = CSet (nm u) s) fs c c'.
  Proof.
    intros D F E. unfold AutofillModel.a_set in E. cbn [AutofillModel.a_setitem] in E.
    pose proof (dget_set (nm u) s c) as G. unfold c_setitem in G.
    destruct (do _ <- check c; can_remove_all (nm u) c) as [[]|x] eqn:C.
    2:{ injection E as <- <-. apply fine_refl. }
    cbn [fst snd] in G. set (c1 := journal (new_delta MReplace (nm u) (read2 s)) (with_entry (setitem lower (nm u) (read1 s) (y_entry c)) c)) in *.
    change (notify_all (a_setitem 2 fs) fs (nm u) c1 = (c', r)) in E.
    destruct (notify_num u sid fixed 1 fs fs c1 c' r D F E) as (K & P & R & (xs & O & X) & _).
    assert (C1 : c1 = fst (c_edit lower (CSet (nm u) s) c)) by (cbn [c_edit]; unfold c_setitem; rewrite C; reflexivity).
    split; [exact (proj1 K)|]. split; [|split].
    - intros Sp b u' A. rewrite (keep_num u u' c1 c' K) in A. unfold at_ in A. rewrite G in A.
      destruct (pyval_eqb_spec (lowv lower (nm u')) (lowv lower (nm u))) as [Q|Q]; [|exact (Sp b u' A)].
      injection A as <-. cbn [s_key]. destruct (bool_dec u u') as [->|N]; [reflexivity|].
      elim (low_ne (num_name u') (num_name u) ltac:(apply in_app_iff; left; apply nm_in) (nm_in u) ltac:(apply nm_ne; congruence) Q).
    - intros f If Df H u' m k v Hn Id. pose proof Hn as Hn1. apply (keep_number u u' c1 c' m K) in Hn1. destruct (bool_dec u u') as [<-|N].
      + destruct r as [[]|x]; [exact (R f m k v If Hn1 Id)|]. exfalso.
        unfold can_remove_all, check in C. destruct R as [R|[R|R]]; [change (y_deleted c1) with (y_deleted c) in R; rewrite R in C; discriminate| |exact (R m Hn1)].
        change (y_dn c1) with (y_dn c) in R. rewrite R in C. destruct (y_deleted c); discriminate.
      + apply (keep_other_id u u' c1 c' f m k v N K Id).
        assert (A : forall t, In t all_names -> t <> num_name u -> at_ lower c1 t = at_ lower c t).
        { intros t It Nt. unfold at_. rewrite G. destruct (pyval_eqb_spec (lowv lower (PStr t)) (lowv lower (nm u))) as [Q|]; [|reflexivity].
          elim (low_ne t (num_name u) ltac:(apply in_app_iff; now left) (nm_in u) Nt Q). }
        destruct Hn1 as (a & w & G1 & V & E1). rewrite A in G1; [|apply nm_in|apply nm_ne; congruence].
        destruct (H u' m k v (ex_intro _ a (ex_intro _ w (conj G1 (conj V E1)))) Id) as (b & B1 & B2). exists b. split; [|exact B2].
        rewrite A; [exact B1|exact (id_all _ _ _ _ _ Id)|apply id_num; exact (id_in _ _ _ _ _ Id)].
    - exists (CSet (nm u) s :: xs). split; [constructor; [now right|eapply Forall_impl; [|exact O]; now left]|].
      unfold AutofillSpec.edits. cbn [fold_left]. rewrite <- C1. exact X.
  Qed.

  Lemma fine_get sid fixed (P : cedit -> Prop) fs x c c' : P x -> c' = fst (c_edit lower x c) -> y_dn c' = y_dn c ->
    (forall u, at_ lower c' (num_name u) = at_ lower c (num_name u)) ->
    (forall f u n k v, of_domain sid fixed f -> id_of u f n = Some (k, v) -> at_ lower c' k = at_ lower c k) -> fine sid fixed P fs c c'.
  Proof.
    intros Px E Dn N I. split; [exact Dn|]. split; [intros Sp b u A; rewrite N in A; exact (Sp b u A)|].
    split; [intros f If Df; apply follows_get; [exact N|intros u n k v; now apply I]|].
    exists [x]. split; [constructor; [now right|constructor]|exact E].
  Qed.
  Lemma fine_set_other sid fixed fs k s c c' r : (forall u, lowv lower (nm u) <> lowv lower k) ->
    (forall f u n t v, of_domain sid fixed f -> id_of u f n = Some (t, v) -> lowv lower (PStr t) <> lowv lower k) ->
    a_set fs k s c = (c', r) -> fine sid fixed (fun x => x = CSet k s) fs c c' /\ c_setitem lower k s c = (c', r).
  Proof.
    intros N I E. unfold AutofillModel.a_set in E. rewrite setitem_plain in E by (intros u ->; elim (N u eq_refl)). split; [|exact E].
    pose proof (dget_set k s c) as G. rewrite E in G. cbn [fst snd] in G. apply (fine_get sid fixed _ fs (CSet k s)); [reflexivity|cbn [c_edit]; now rewrite E| | |].
    - unfold c_setitem in E. destruct (do _ <- check c; can_remove_all k c); injection E as <- <-; reflexivity.
    - intros u. unfold at_. rewrite G. destruct (pyval_eqb_spec (lowv lower (nm u)) (lowv lower k)) as [Q|]; [elim (N u Q)|now destruct r].
    - intros f u n t v Df Id. unfold at_. rewrite G. destruct (pyval_eqb_spec (lowv lower (PStr t)) (lowv lower k)) as [Q|]; [elim (I f u n t v Df Id Q)|now destruct r].
  Qed.

  Lemma fine_del sid fixed fs k c c' r : Forall (of_domain sid fixed) fs -> rdn_free c -> not_id lower k ->
    a_delitem lower io iob fs k c = (c', r) -> fine sid fixed (fun x => x = CDel k) fs c c'.
  Proof.
    intros D F NI E. unfold a_delitem, delitem in E.
    destruct (do _ <- check c; do _ <- can_remove_all k c; _) as [e|x] eqn:C; [|injection E as <- <-; apply fine_refl].
    set (c1 := journal (new_delta MDelete k []) (with_entry e c)).
    assert (C1 : c1 = fst (c_edit lower (CDel k) c)) by (cbn [c_edit]; unfold c_delitem, delitem; rewrite C; reflexivity).
    assert (Ee : e = mkEntry (e_dn (y_entry c)) (dict_del lower k (e_attrs (y_entry c)))).
    { destruct (check c); cbn [bind] in C; [|discriminate]. destruct (can_remove_all k c); cbn [bind] in C; [|discriminate].
      destruct (dict_get lower k (e_attrs (y_entry c))); [|discriminate]. now apply Ok_inj in C. }
    assert (G : forall k', dget k' c1 = if pyval_eqb (lowv lower k') (lowv lower k) then None else dget k' c).
    { intros k'. subst c1 e. cbn [journal with_entry y_entry e_attrs]. apply dget_del. }
    assert (Dn : y_dn c1 = y_dn c) by (subst c1 e; reflexivity).
    assert (F1 : rdn_free c1) by (unfold rdn_free; rewrite Dn; exact F).
    assert (A : fine sid fixed (fun x => x = CDel k) fs c c1).
    { split; [exact Dn|]. split; [|split].
      - intros Sp b u A. unfold at_ in A. rewrite G in A. destruct (pyval_eqb (lowv lower (nm u)) (lowv lower k)); [discriminate|exact (Sp b u A)].
      - intros f If Df H u n t v (a & w & A & V & Hn) Id. unfold at_ in A. rewrite G in A. destruct (pyval_eqb (lowv lower (nm u)) (lowv lower k)); [discriminate|].
        destruct (H u n t v (ex_intro _ a (ex_intro _ w (conj A (conj V Hn)))) Id) as (b & B1 & B2). exists b. split; [|exact B2]. unfold at_. rewrite G.
        destruct (pyval_eqb_spec (lowv lower (PStr t)) (lowv lower k)) as [Q|]; [elim (NI t (id_in _ _ _ _ _ Id)); now symmetry|exact B1].
      - exists [CDel k]. split; [constructor; [now right|constructor]|exact C1]. }
    unfold a_journal in E. change (d_key (new_delta MDelete k [])) with k in E. change (notify_all (a_setitem 2 fs) fs k c1 = (c', r)) in E.
    assert (Dec : (exists u, k = nm u) \/ forall u, k <> nm u).
    { destruct (pyval_eqb_spec k (nm true)) as [Q|Q]; [left; now exists true|]. destruct (pyval_eqb_spec k (nm false)) as [Q'|Q']; [left; now exists false|]. right. intros []; assumption. }
    destruct Dec as [(u & ->)|N].
    - eapply (fine_trans sid fixed _ (fun _ => False)); [intros x Hx; exact Hx|intros x []|exact A|].
      destruct (notify_num u sid fixed 1 fs fs c1 c' r D F1 E) as (K & _ & _ & (xs & O & X) & _).
      split; [exact (proj1 K)|]. split; [intros Sp b u' B; rewrite (keep_num u u' c1 c' K) in B; exact (Sp b u' B)|].
      split; [intros f If Df; exact (notify_pres u sid fixed 1 fs fs c1 c' r f D F1 Df E)|].
      exists xs. split; [eapply Forall_impl; [|exact O]; now left|exact X].
    - rewrite notify_other in E by exact N. injection E as <- <-. exact A.
  Qed.

  Lemma upd_twice k l v : dict_upd lower k (fun _ => v) (dict_upd lower k (fun _ => v) l) = dict_upd lower k (fun _ => v) l.
  Proof.
    induction l as [|a l IH]; cbn; [reflexivity|]. destruct (same_key lower k a) eqn:S; cbn.
    - change (same_key lower k (mkSet (s_key a) v)) with (same_key lower k a). now rewrite S.
    - now rewrite S, IH.
  Qed.
  Lemma found_form k e a : getitem lower k e = Ok a -> exists l f, get_strings k = Ok l /\ In f l /\ lowv lower (s_key a) = lowv lower f.
  Proof.
    unfold getitem, find_key. intros G. apply bind_ok in G as (o & G & Q). apply bind_ok in G as (l & G & X). apply Ok_inj in X. exists l.
    destruct o as [b|]; [|discriminate]. apply Ok_inj in Q. subst b. 
    assert (Y : exists f, In f l /\ lowv lower (s_key a) = lowv lower f); [|destruct Y as (f & Y); exists f; auto].
    clear G. induction l as [|f l IH]; cbn [fold_right] in X; [discriminate|].
    destruct (dict_get lower f (e_attrs e)) as [b|] eqn:Gf.
    - injection X as ->. exists f. split; [now left|]. exact (proj2 (dict_get_some lower _ _ _ Gf)).
    - destruct (IH X) as (f' & I & Y). exists f'. split; [now right|exact Y].
  Qed.
  Lemma on_other fs k m c : covered lower (COn k m) -> a_on_set lower io iob fs k m c = on_set lower k m c.
  Proof.
    intros Cv. unfold a_on_set, on_set. destruct (do _ <- check c; getitem lower k (y_entry c)) as [a|x] eqn:G; [|reflexivity].
    apply bind_ok in G as (_ & _ & G). destruct (found_form k _ a G) as (l & f & Gl & If & Lf).
    assert (N : forall u, s_key a <> nm u).
    { intros u Q. rewrite Q in Lf. exact (Cv l f Gl If (num_name u) (nm_in u) (eq_sym Lf)). }
    assert (J : forall mm c, d_key mm = s_key a -> a_journal lower io iob fs mm c = (journal mm c, Ok tt)).
    { intros mm c0 Hk. unfold a_journal. rewrite Hk. now apply notify_other. }
    unfold a_method, set_method. destruct m as [v|s|v| |v]; try (rewrite J by reflexivity).
    - now destruct (aset_add v (s_vals a)).
    - reflexivity.
    - destruct (negb (mem v (s_vals a))); [reflexivity|]. destruct (can_remove (s_key a) v c); [|reflexivity]. try rewrite J by reflexivity. now destruct (aset_remove v (s_vals a)).
    - destruct (can_remove_all (s_key a) c); [|reflexivity]. try rewrite J by reflexivity. unfold set_vals, with_entry, journal. cbn [y_entry e_dn e_attrs y_remote y_journal y_deleted].
      now rewrite upd_twice.
    - reflexivity.
  Qed.
  Lemma method_entry m key vals c c' l r : set_method m key vals c = (c', l, r) -> y_entry c' = y_entry c.
  Proof.
    unfold set_method. destruct m as [v|s|v| |v].
    - destruct (aset_add v vals); intros E; injection E as <- _ _; reflexivity.
    - intros E; injection E as <- _ _; reflexivity.
    - destruct (negb (mem v vals)); [intros E; injection E as <- _ _; reflexivity|]. destruct (can_remove key v c); [|intros E; injection E as <- _ _; reflexivity].
      destruct (aset_remove v vals); intros E; injection E as <- _ _; reflexivity.
    - destruct (can_remove_all key c); intros E; injection E as <- _ _; reflexivity.
    - intros E; injection E as <- _ _; reflexivity.
  Qed.
  Lemma fine_on sid fixed fs k m c c' r : covered lower (COn k m) -> a_on_set lower io iob fs k m c = (c', r) -> fine sid fixed (fun x => x = COn k m) fs c c'.
  Proof.
    intros Cv E. rewrite on_other in E by exact Cv.
    assert (Dn : y_dn c' = y_dn c /\ forall t, In t all_names -> at_ lower c' t = at_ lower c t).
    { unfold on_set in E. destruct (do _ <- check c; getitem lower k (y_entry c)) as [a|x] eqn:G; [|injection E as <- <-; auto].
      apply bind_ok in G as (_ & _ & G). destruct (found_form k _ a G) as (l & f & Gl & If & Lf).
      destruct (set_method m (s_key a) (s_vals a) c) as [[c1 vs] r1] eqn:M. injection E as <- <-. pose proof (method_entry _ _ _ _ _ _ _ M) as Y.
      split; [unfold y_dn; cbn; now rewrite Y|]. intros t It. unfold at_, with_entry, set_vals. cbn [y_entry e_attrs]. rewrite dget_upd, Y; [reflexivity|].
      rewrite Lf. intros Q. exact (Cv l f Gl If t It (eq_sym Q)). }
    destruct Dn as (Dn & A). apply (fine_get sid fixed _ fs (COn k m)); [reflexivity|cbn [c_edit]; now rewrite E|exact Dn| |].
    - intros u. apply A, nm_in.
    - intros f u n t v _ Id. apply A. exact (id_all _ _ _ _ _ Id).
  Qed.

  Lemma fine_edit sid fixed fs x c c' r : Forall (of_domain sid fixed) fs -> rdn_free c -> covered lower x ->
    a_edit lower io iob fs x c = (c', r) -> fine sid fixed (fun y => y = x) fs c c'.
  Proof.
    intros D F Cv E. destruct x as [k m|k s|k]; cbn [a_edit] in E.
    - exact (fine_on sid fixed fs k m c c' r Cv E).
    - destruct Cv as [(u & ->)|O]; [exact (fine_set_num sid fixed fs u s c c' r D F E)|].
      apply (fine_set_other sid fixed fs k s c c' r) in E; [exact (proj1 E)| |].
      + intros u Q. exact (O (num_name u) (nm_in u) (eq_sym Q)).
      + intros f u n t v _ Id Q. exact (O t (id_all _ _ _ _ _ Id) (eq_sym Q)).
    - exact (fine_del sid fixed fs k c c' r D F Cv E).
  Qed.

  (** *** Starting *)
  Definition default_names : list str := map fst samba_defaults ++ map fst (sam_defaults [] (Some 0)) ++ [S_ "loginShell"].
  Lemma default_in f k v : In (k, v) (defaults f) -> In k default_names.
  Proof.
    unfold default_names. rewrite !in_app_iff. destruct f as [| |sid x].
    - intros [E|[]]. injection E as <- _. right. right. now left.
    - intros I. left. change (defaults FSamba) with samba_defaults in I. apply in_map_iff. now exists (k, v).
    - intros I. right. left. cbn [defaults] in I. apply in_app_iff in I. destruct I as [I|I].
      + apply in_map_iff. exists (k, v). split; [reflexivity|]. apply in_app_iff. now left.
      + destruct x as [g|]; [|contradiction]. destruct I as [E|[]]. injection E as <- _. cbn. tauto.
  Qed.
  Lemma default_num f k v u : In (k, v) (defaults f) -> lowv lower (nm u) <> lowv lower (PStr k).
  Proof.
    intros I Q. apply default_in in I. apply (low_ne k (num_name u)); [apply in_app_iff; now right|apply nm_in| |now symmetry].
    intros ->. assert (X : forallb (fun t => negb (pyval_eqb (PStr t) (nm u))) default_names = true) by (destruct u; vm_compute; reflexivity).
    rewrite forallb_forall in X. specialize (X _ I). now rewrite pyval_eqb_refl in X.
  Qed.
  (** A default is an identifier only when the group is fixed, and then no filler of the domain sets it. *)
  Lemma default_id sid fixed f g k v u n t w : of_domain sid fixed f -> of_domain sid fixed g -> In (k, v) (defaults f) -> id_of u g n = Some (t, w) ->
    lowv lower (PStr t) <> lowv lower (PStr k).
  Proof.
    intros Df Dg I Id Q. assert (E : k = t).
    { destruct (list_eq_dec Z.eq_dec k t) as [E|N]; [exact E|]. elim (low_ne k t ltac:(apply in_app_iff; right; exact (default_in f k v I)) (id_all _ _ _ _ _ Id) N). now symmetry. }
    subst k. assert (X : t = S_ "sambaPrimaryGroupSID" -> u = false -> exists s, g = FSam s None).
    { intros -> ->. destruct g as [| |s [y|]]; cbn in Id; try discriminate. now exists s. }
    pose proof (id_in _ _ _ _ _ Id) as J.
    destruct f as [| |s x]; cbn [defaults] in I.
    - destruct I as [E|[]]. injection E as E _. rewrite <- E in J. repeat destruct J as [J|J]; try (vm_compute in J; discriminate); contradiction.
    - repeat destruct I as [I|I]; try contradiction; injection I as E _; rewrite <- E in J; repeat destruct J as [J|J]; try (vm_compute in J; discriminate); contradiction.
    - apply in_app_iff in I. destruct I as [I|I].
      + repeat destruct I as [I|I]; try contradiction; injection I as E _; rewrite <- E in J; repeat destruct J as [J|J]; try (vm_compute in J; discriminate); contradiction.
      + destruct x as [y|]; [|contradiction]. destruct I as [E|[]]. injection E as E _. destruct Df as (-> & <-).
        destruct u; [destruct g as [| |s [z|]]; cbn in Id; try discriminate; injection Id as Q' _; rewrite <- Q' in E; vm_compute in E; discriminate|].
        destruct (X (eq_sym E) eq_refl) as (s' & ->). cbn in Dg. destruct Dg. discriminate.
  Qed.
  Lemma default_nodup f : NoDup (map (fun kv => lowv lower (PStr (fst kv))) (defaults f)).
  Proof.
    assert (X : map (fun kv => lowv lower (PStr (fst kv))) (defaults f) = map (fun k => PStr (ascii_lower k)) (map fst (defaults f))).
    { rewrite map_map. apply map_ext_in. intros (k, v) I. cbn [lowv fst]. f_equal. apply low_name. apply default_in in I. unfold default_names in I. rewrite !in_app_iff in *. tauto. }
    rewrite X. clear X.
    destruct f as [| |sid [x|]]; cbn [defaults map fst app];
      repeat (apply NoDup_cons; [intros Q; repeat destruct Q as [Q|Q]; try (vm_compute in Q; discriminate); contradiction|]); apply NoDup_nil.
  Qed.

  Lemma has_none k c : a_has lower (PStr k) c = Ok false -> at_ lower c k = None.
  Proof.
    unfold a_has, has_key, find_key, at_. intros H. apply bind_ok in H as (_ & _ & H). apply bind_ok in H as (o & H & Q). apply bind_ok in H as (l & G & H).
    cbn [get_strings] in G. apply bind_ok in G as (b & _ & G). apply Ok_inj in G. subst l. apply Ok_inj in H. cbn [fold_right] in H.
    destruct (dict_get lower (PStr k) (e_attrs (y_entry c))); [|reflexivity]. subst o. discriminate.
  Qed.
  Lemma fill_all_spec sid fixed fs f : of_domain sid fixed f -> forall l, (forall kv, In kv l -> In kv (defaults f)) -> NoDup (map (fun kv => lowv lower (PStr (fst kv))) l) ->
    forall c c' r, fill_all lower io iob fs l c = (c', r) ->
    fine sid fixed (from_event (AAdd f)) fs c c' /\ y_deleted c' = y_deleted c /\
    (forall k, (forall kv, In kv l -> lowv lower k <> lowv lower (PStr (fst kv))) -> dget k c' = dget k c) /\
    (r = Ok tt -> forall k v, In (k, v) l -> at_ lower c k = None /\ shows c' k v).
  Proof.
    intros Df. induction l as [|(k, v) l IH]; intros Sub ND c c' r E; cbn [fill_all] in E.
    - injection E as <- <-. split; [apply fine_refl|]. split; [reflexivity|]. split; [reflexivity|]. intros _ k v [].
    - cbn [map fst] in ND. inversion ND as [|? ? N1 N2]; subst. unfold fill in E. cbn [fst snd] in E.
      destruct (a_has lower (PStr k) c) as [[|]|x] eqn:H.
      1, 3: injection E as <- <-; (split; [apply fine_refl|]); (split; [reflexivity|]); (split; [reflexivity|discriminate]).
      destruct (a_set fs (PStr k) (Listed [PStr v]) c) as [c1 r1] eqn:W.
      assert (Ik : In (k, v) (defaults f)) by (apply Sub; now left).
      destruct (fine_set_other sid fixed fs (PStr k) (Listed [PStr v]) c c1 r1) as (F1 & S1); [intros u; exact (default_num f k v u Ik)|intros g u n t w Dg Id; exact (default_id sid fixed f g k v u n t w Df Dg Ik Id)|exact W|].
      assert (F1' : fine sid fixed (from_event (AAdd f)) fs c c1).
      { destruct F1 as (A1 & A2 & A3 & xs & A4 & A5). split; [exact A1|]. split; [exact A2|]. split; [exact A3|]. exists xs. split; [|exact A5].
        eapply Forall_impl; [|exact A4]. intros x [Hx|Hx]; [now left|right]. now exists k, v. }
      pose proof (dget_set (PStr k) (Listed [PStr v]) c) as G. rewrite S1 in G. cbn [fst snd] in G.
      assert (Dl : y_deleted c1 = y_deleted c) by (unfold c_setitem in S1; destruct (do _ <- check c; can_remove_all (PStr k) c); injection S1 as <- <-; reflexivity).
      destruct r1 as [[]|x].
      2:{ injection E as <- <-. split; [exact F1'|]. split; [exact Dl|]. split; [intros k' _; apply G|discriminate]. }
      destruct (IH (fun kv I => Sub kv (or_intror I)) N2 c1 c' r E) as (F2 & Dl2 & K2 & R2).
      split; [exact (fine_trans sid fixed _ _ _ fs c c1 c' (fun x H => H) (fun x H => H) F1' F2)|]. split; [congruence|]. split.
      + intros k' Nk. rewrite K2 by (intros kv I; apply Nk; now right). rewrite G.
        destruct (pyval_eqb_spec (lowv lower k') (lowv lower (PStr k))) as [Q|]; [elim (Nk (k, v) (or_introl eq_refl) Q)|reflexivity].
      + intros -> k' v' [Q|I].
        * injection Q as <- <-. split; [exact (has_none k c H)|]. exists (mkSet (PStr k) [PStr v]). split; [|reflexivity].
          unfold at_. rewrite K2; [now rewrite G, pyval_eqb_refl|]. intros (k2, v2) I Q. cbn [fst] in Q. apply N1. change (In (lowv lower (PStr k)) (map (fun kv => lowv lower (PStr (fst kv))) l)). rewrite Q. apply in_map_iff. now exists (k2, v2).
        * destruct (R2 eq_refl k' v' I) as (A & S2). split; [|exact S2]. unfold at_ in A |- *. rewrite G in A.
          destruct (pyval_eqb (lowv lower (PStr k')) (lowv lower (PStr k))); [discriminate|exact A].
  Qed.

  (** Notifying one filler of the keys. *)
  Lemma keys_spec sid fixed fs f : of_domain sid fixed f -> forall ks c c' r, rdn_free c -> notify_keys lower io iob fs f ks c = (c', r) ->
    fine sid fixed (from_event (AAdd f)) fs c c' /\ (forall u, at_ lower c' (num_name u) = at_ lower c (num_name u)) /\
    (forall k, (forall u n t v, id_of u f n = Some (t, v) -> lowv lower k <> lowv lower (PStr t)) -> dget k c' = dget k c) /\
    (forall u n k v, has_number c (num_name u) n -> id_of u f n = Some (k, v) -> shows c k v -> shows c' k v) /\
    (r = Ok tt -> forall u n k v, In (nm u) ks -> has_number c (num_name u) n -> id_of u f n = Some (k, v) -> shows c' k v).
  Proof.
    intros Df. induction ks as [|key ks IH]; intros c c' r F E; cbn [notify_keys] in E.
    - injection E as <- <-. split; [apply fine_refl|]. split; [reflexivity|]. split; [reflexivity|]. split; [auto|]. intros _ ? ? ? ? [].
    - destruct (notify_all (a_set fs) [f] key c) as [c1 r1] eqn:W. change (notify_all (a_setitem 3 fs) [f] key c = (c1, r1)) in W.
      assert (Dec : (exists u, key = nm u) \/ forall u, key <> nm u).
      { destruct (pyval_eqb_spec key (nm true)) as [Q|Q]; [left; now exists true|]. destruct (pyval_eqb_spec key (nm false)) as [Q'|Q']; [left; now exists false|]. right. intros []; assumption. }
      destruct Dec as [(u & ->)|N].
      + destruct (notify_num u sid fixed 2 fs [f] c c1 r1 (Forall_cons _ Df (Forall_nil _)) F W) as (K & P & R & (xs & O & X) & Y).
        assert (F1 : fine sid fixed (from_event (AAdd f)) fs c c1).
        { split; [exact (proj1 K)|]. split; [intros Sp b u' B; rewrite (keep_num u u' c c1 K) in B; exact (Sp b u' B)|].
          split; [intros g Ig Dg; exact (notify_pres u sid fixed 2 fs [f] c c1 r1 g (Forall_cons _ Df (Forall_nil _)) F Dg W)|].
          exists xs. split; [eapply Forall_impl; [|exact O]; now left|exact X]. }
        assert (P1 : forall u' n k v, has_number c (num_name u') n -> id_of u' f n = Some (k, v) -> shows c k v -> shows c1 k v).
        { intros u' n k v Hn Id Sh. destruct (bool_dec u u') as [<-|NN]; [exact (P f n k v Df Hn Id Sh)|]. now apply (keep_other_id u u' c c1 f n k v NN K Id). }
        assert (Y1 : forall k, (forall u n t v, id_of u f n = Some (t, v) -> lowv lower k <> lowv lower (PStr t)) -> dget k c1 = dget k c).
        { intros k Nk. apply Y. intros f' n t v [<-|[]] Id. exact (Nk u n t v Id). }
        destruct r1 as [[]|x].
        2:{ injection E as <- <-. split; [exact F1|]. split; [intros; exact (keep_num u _ c c1 K)|]. split; [exact Y1|]. split; [exact P1|discriminate]. }
        assert (Fr : rdn_free c1) by (unfold rdn_free; rewrite (proj1 K); exact F).
        destruct (IH c1 c' r Fr E) as (F2 & A2 & Y2 & P2 & R2).
        split; [exact (fine_trans sid fixed _ _ _ fs c c1 c' (fun x H => H) (fun x H => H) F1 F2)|].
        split; [intros u'; rewrite A2; exact (keep_num u u' c c1 K)|]. split; [intros k Nk; rewrite Y2 by exact Nk; now apply Y1|].
        split; [intros u' n k v Hn Id Sh; apply (P2 u' n k v); [now apply (keep_number u u' c c1 n K)|exact Id|now apply (P1 u' n)]|].
        intros -> u' n k v [Q|I] Hn Id.
        * assert (u = u') by (destruct u, u'; try reflexivity; vm_compute in Q; discriminate). subst u'.
          apply (P2 u n k v); [now apply (keep_number u u c c1 n K)|exact Id|]. exact (R f n k v (or_introl eq_refl) Hn Id).
        * apply (R2 eq_refl u' n k v I); [now apply (keep_number u u' c c1 n K)|exact Id].
      + rewrite notify_other in W by exact N. injection W as <- <-.
        destruct (IH c c' r F E) as (F2 & A2 & Y2 & P2 & R2). split; [exact F2|]. split; [exact A2|]. split; [exact Y2|]. split; [exact P2|].
        intros -> u n k v [Q|I]; [elim (N u Q)|now apply (R2 eq_refl)].
  Qed.

  Lemma key_listed c ks a u : e_keys lower oc_first (y_entry c) = Ok ks -> at_ lower c (num_name u) = Some a -> s_key a = nm u -> In (nm u) ks.
  Proof.
    unfold e_keys. intros E A K. apply bind_ok in E as (l & S & E). apply Ok_inj in E. subst ks. apply in_app_iff. right. apply filter_In. split.
    - unfold sort_to_bytes in S. apply bind_ok in S as (bs & M & S). apply Ok_inj in S. subst l.
      apply dict_get_some in A as (A & _).
      assert (I : In (nm u) (keys_of (y_entry c))) by (unfold keys_of; apply in_map_iff; exists a; auto).
      apply mapR_Forall2 in M. apply in_map_iff.
      assert (X : exists b, In (b, nm u) bs).
      { clear -M I. induction M as [|v y l m E M IH]; [contradiction|]. destruct I as [->|I].
        - apply bind_ok in E as (b & _ & E). apply Ok_inj in E. subst y. exists b. now left.
        - destruct (IH I) as (b & Ib). exists b. now right. }
      destruct X as (b & Ib). exists (b, nm u). split; [reflexivity|]. eapply Permutation_in; [apply sort_perm|exact Ib].
    - unfold is_oc. cbn [lowv]. rewrite low_name by (apply in_app_iff; left; apply nm_in). destruct u; vm_compute; reflexivity.
  Qed.

  Definition class_there (f : filler) (c : cent) : Prop := exists vs, get_values lower (PStr (S_ "objectClass")) (y_entry c) = Ok vs /\ In (PStr (class_of f)) vs.
  Lemma has_class_ok f c : has_class lower (class_of f) c = Ok tt -> class_there f c.
  Proof.
    unfold has_class, a_get, getitem, class_there, get_values. intros H. apply bind_ok in H as (b & _ & H). destruct b; [|discriminate].
    apply bind_ok in H as (vs & G & H). apply bind_ok in G as (_ & _ & G). apply bind_ok in G as (a & G & Q). apply Ok_inj in Q. subst vs.
    apply bind_ok in G as (o & G & Q). destruct o as [b|]; [|discriminate]. apply Ok_inj in Q. subst b. exists (s_vals a). rewrite G. split; [reflexivity|].
    destruct (mem (PStr (class_of f)) (s_vals a)) eqn:M; [|discriminate]. now apply mem_In.
  Qed.

  Lemma start_spec sid fixed fs f c c' r : of_domain sid fixed f -> rdn_free c -> start lower oc_first io iob fs f c = (c', r) ->
    fine sid fixed (from_event (AAdd f)) fs c c' /\
    (r = Ok tt -> class_there f c /\
       (forall k v, In (k, v) (defaults f) -> at_ lower c k = None /\ shows c' k v) /\
       (forall k, (forall k' v, In (k', v) (defaults f) -> lowv lower k <> lowv lower (PStr k')) -> not_id lower k -> dget k c' = dget k c) /\
       (spelled c -> match f with FSam _ _ => follows f c' | _ => True end)).
  Proof.
    intros Df F E.
    assert (Plain : forall l, l = defaults f -> match has_class lower (class_of f) c with Err x => (c, Err x) | Ok _ => fill_all lower io iob fs l c end = (c', r) ->
      fine sid fixed (from_event (AAdd f)) fs c c' /\ (r = Ok tt -> class_there f c /\
       (forall k v, In (k, v) (defaults f) -> at_ lower c k = None /\ shows c' k v) /\
       (forall k, (forall k' v, In (k', v) (defaults f) -> lowv lower k <> lowv lower (PStr k')) -> not_id lower k -> dget k c' = dget k c))).
    { intros l -> W. destruct (has_class lower (class_of f) c) as [[]|x] eqn:H; [|injection W as <- <-; split; [apply fine_refl|discriminate]].
      destruct (fill_all_spec sid fixed fs f Df (defaults f) (fun _ I => I) (default_nodup f) c c' r W) as (A & _ & K & R). split; [exact A|].
      intros Q. split; [exact (has_class_ok f c H)|]. split; [exact (R Q)|]. intros k Nk _. apply K. intros (k', v) I. exact (Nk k' v I). }
    destruct f as [| |s x]; cbn [start] in E.
    - destruct (Plain _ eq_refl E) as (A & R). split; [exact A|]. intros Q. destruct (R Q) as (R1 & R2 & R3). auto.
    - destruct (Plain _ eq_refl E) as (A & R). split; [exact A|]. intros Q. destruct (R Q) as (R1 & R2 & R3). auto.
    - clear Plain. set (f := FSam s x) in *. change (S_ "sambaSamAccount") with (class_of f) in E.
      destruct (has_class lower (class_of f) c) as [[]|y] eqn:H; [|injection E as <- <-; split; [apply fine_refl|discriminate]].
      change (sam_defaults s x) with (defaults f) in E.
      destruct (fill_all lower io iob fs (defaults f) c) as [c1 r1] eqn:W.
      destruct (fill_all_spec sid fixed fs f Df (defaults f) (fun _ I => I) (default_nodup f) c c1 r1 W) as (A & Dl & K & R).
      destruct r1 as [[]|y]; [|injection E as <- <-; split; [exact A|discriminate]].
      destruct (do _ <- check c1; e_keys lower oc_first (y_entry c1)) as [ks|y] eqn:Ek; [|injection E as <- <-; split; [exact A|discriminate]].
      apply bind_ok in Ek as (_ & _ & Ek).
      assert (F1 : rdn_free c1) by (unfold rdn_free; rewrite (proj1 A); exact F).
      destruct (keys_spec sid fixed fs f Df ks c1 c' r F1 E) as (B & An & Y & P & R2).
      split; [exact (fine_trans sid fixed _ _ _ fs c c1 c' (fun x H => H) (fun x H => H) A B)|].
      intros Q. split; [exact (has_class_ok f c H)|]. split; [|split].
      + intros k v I. destruct (R eq_refl k v I) as (R3 & a & R4 & R5). split; [exact R3|]. exists a. split; [|exact R5]. unfold at_ in *. rewrite Y; [exact R4|].
        intros u n t w Id Q'. exact (default_id sid fixed f f k v u n t w Df Df I Id (eq_sym Q')).
      + intros k Nk Ni. rewrite Y; [apply K; intros (k', v) I; exact (Nk k' v I)|]. intros u n t w Id. exact (Ni t (id_in _ _ _ _ _ Id)).
      + intros Sp u n k v (a & w & G & V & Hn) Id. pose proof G as G'. rewrite An in G'.
        apply (R2 Q u n k v); [apply (key_listed c1 ks a u Ek G')|now exists a, w|exact Id]. apply (proj1 (proj2 A) Sp a u G').
  Qed.

  (** *** Runs *)
  Lemma step_spec sid fixed e a a' r : sound lower sid fixed a -> covered_event lower sid fixed e -> a_step lower oc_first io iob e a = (a', r) ->
    sound lower sid fixed a' /\ fine sid fixed (from_event e) (f_fillers a) (f_cent a) (f_cent a') /\
    (forall f, In f (f_fillers a) -> In f (f_fillers a')) /\ (r = Ok tt -> forall f, e = AAdd f -> f <> FPosix -> In f (f_fillers a')).
  Proof.
    intros (F & Sp & D) Ce E.
    assert (Snd : forall c' fs', fine sid fixed (from_event e) (f_fillers a) (f_cent a) c' -> Forall (of_domain sid fixed) fs' -> sound lower sid fixed (mkAent c' fs')).
    { intros c' fs' (A1 & A2 & _) D'. split; [|split; [exact (A2 Sp)|exact D']]. cbn [f_cent]. rewrite A1. exact F. }
    destruct a as [c fs]. cbn [f_cent f_fillers] in *. unfold a_step in E. cbn [f_cent f_fillers] in E. destruct e as [x|f|nr].
    - destruct (a_edit lower io iob fs x c) as [c' r'] eqn:W. injection E as <- <-. pose proof (fine_edit sid fixed fs x c c' r' D F Ce W) as A.
      split; [now apply Snd|]. split; [exact A|]. split; [auto|discriminate].
    - assert (St : forall c' r', start lower oc_first io iob fs f c = (c', r') -> fine sid fixed (from_event (AAdd f)) fs c c').
      { intros c' r' W. exact (proj1 (start_spec sid fixed fs f c c' r' Ce F W)). }
      assert (W : f <> FPosix -> with_filler f fs (start lower oc_first io iob fs f c) = (a', r) ->
        sound lower sid fixed a' /\ fine sid fixed (from_event (AAdd f)) fs c (f_cent a') /\ (forall g, In g fs -> In g (f_fillers a')) /\
        (r = Ok tt -> forall g, AAdd f = AAdd g -> g <> FPosix -> In g (f_fillers a'))).
      { intros _ W. destruct (start lower oc_first io iob fs f c) as [c' [[]|x]] eqn:V; cbn [with_filler] in W; injection W as <- <-; specialize (St c' _ eq_refl); cbn [f_cent f_fillers].
        - split; [apply Snd; [exact St|apply Forall_app; split; [exact D|constructor; [exact Ce|constructor]]]|]. split; [exact St|].
          split; [intros g Ig; apply in_app_iff; now left|]. intros _ g Q _. injection Q as <-. apply in_app_iff. right. now left.
        - split; [now apply Snd|]. split; [exact St|]. split; [auto|discriminate]. }
      destruct f as [| |s x]; [|apply W; [discriminate|exact E]|apply W; [discriminate|exact E]].
      destruct (start lower oc_first io iob fs FPosix c) as [c' r'] eqn:V. injection E as <- <-. specialize (St c' r' eq_refl).
      split; [now apply Snd|]. split; [exact St|]. split; [auto|]. intros _ g Q N. injection Q as <-. now elim N.
    - assert (G : forall c' r', got_numbers lower io iob fs nr c = (c', r') -> fine sid fixed (from_event (ANumbers nr)) fs c c').
      { intros c' r' W. destruct nr as [[u g]|x]; cbn [got_numbers] in W; [|injection W as <- <-; apply fine_refl].
        destruct (a_set fs (PStr (S_ "uidNumber")) (Listed [PStr (dec u)]) c) as [c1 r1] eqn:W1.
        pose proof (fine_set_num sid fixed fs true (Listed [PStr (dec u)]) c c1 r1 D F W1) as A.
        destruct r1 as [[]|x].
        - assert (F1 : rdn_free c1) by (unfold rdn_free; rewrite (proj1 A); exact F).
          pose proof (fine_set_num sid fixed fs false (Listed [PStr (dec g)]) c1 c' r' D F1 W) as B.
          refine (fine_trans sid fixed _ _ _ fs c c1 c' _ _ A B); cbn [from_event]; intros x ->; [now left|now right].
        - injection W as <- <-. refine (fine_trans sid fixed _ _ _ fs c c1 c1 _ (fun x (H : False) => match H with end) A (fine_refl _ _ _ _ _)). cbn [from_event]. intros y ->. now left. }
      destruct (got_numbers lower io iob fs nr c) as [c' [[]|x]] eqn:V; cbn [with_filler] in E; injection E as <- <-; specialize (G c' _ eq_refl); cbn [f_cent f_fillers].
      + split; [apply Snd; [exact G|apply Forall_app; split; [exact D|constructor; [exact I|constructor]]]|]. split; [exact G|].
        split; [intros g Ig; apply in_app_iff; now left|discriminate].
      + split; [now apply Snd|]. split; [exact G|]. split; [auto|discriminate].
  Qed.

  Theorem run_spec sid fixed l : forall a, sound lower sid fixed a -> Forall (covered_event lower sid fixed) l ->
    let a' := a_run lower oc_first io iob l a in
    sound lower sid fixed a' /\
    (forall f, In f (f_fillers a) -> In f (f_fillers a') /\ (follows f (f_cent a) -> follows f (f_cent a'))) /\
    exists xs, Forall (fun x => own_edit x \/ exists e, In e l /\ from_event e x) xs /\ f_cent a' = edits xs (f_cent a).
  Proof.
    induction l as [|e l IH]; intros a Sd Cv a'.
    - split; [exact Sd|]. split; [auto|]. exists []. split; [constructor|reflexivity].
    - inversion Cv as [|? ? Ce Cl]; subst. subst a'. cbn [a_run fold_left]. destruct (a_step lower oc_first io iob e a) as [a1 r] eqn:E. cbn [fst].
      destruct (step_spec sid fixed e a a1 r Sd Ce E) as (S1 & (_ & _ & F1 & xs & O1 & X1) & K1 & _).
      destruct (IH a1 S1 Cl) as (S2 & F2 & ys & O2 & X2). split; [exact S2|]. split.
      + intros f If. destruct (F2 f (K1 f If)) as (F3 & F4). split; [exact F3|]. intros H. apply F4, (F1 f If); [|exact H].
        destruct Sd as (_ & _ & D). rewrite Forall_forall in D. exact (D f If).
      + exists (xs ++ ys). split; [|rewrite edits_app, <- X1; exact X2]. apply Forall_app. split.
        * eapply Forall_impl; [|exact O1]. intros x [Hx|Hx]; [now left|right; exists e; split; [now left|exact Hx]].
        * eapply Forall_impl; [|exact O2]. intros x [Hx|(e' & Ie & Hx)]; [now left|right; exists e'; split; [now right|exact Hx]].
  Qed.

  (** *** Assigning a number *)
  Lemma assign_spec sid fixed a u v n r rest : sound lower sid fixed a -> y_deleted (f_cent a) = false -> y_dn (f_cent a) = r :: rest ->
    (forall x, In x r -> a_type x <> num_name u) -> num io iob v = Ok n ->
    exists c', a_step lower oc_first io iob (AEdit (CSet (nm u) (Listed [v]))) a = (mkAent c' (f_fillers a), Ok tt) /\
      y_journal c' = y_journal (f_cent a) ++ new_delta MReplace (nm u) [v]
        :: flat_map (fun f => match id_of u f n with Some (k, t) => [new_delta MReplace (PStr k) [PStr t]] | None => [] end) (f_fillers a) /\
      (exists b, at_ lower c' (num_name u) = Some b /\ s_vals b = [v]) /\
      (forall f k t, In f (f_fillers a) -> id_of u f n = Some (k, t) -> shows c' k t) /\
      y_dn c' = r :: rest /\ y_deleted c' = false /\
      forall k, lowv lower k <> lowv lower (nm u) -> (forall f m t w, id_of u f m = Some (t, w) -> lowv lower k <> lowv lower (PStr t)) -> dget k c' = dget k (f_cent a).
  Proof.
    destruct a as [c fs]. cbn [f_cent f_fillers]. intros (F & Sp & D) Dl Dn Nx Hv. cbn [f_cent f_fillers] in *.
    unfold a_step. cbn [f_cent f_fillers a_edit]. unfold AutofillModel.a_set. cbn [AutofillModel.a_setitem].
    assert (C : (do _ <- check c; can_remove_all (nm u) c) = Ok tt).
    { unfold can_remove_all, check. rewrite Dl, Dn. cbn [bind]. destruct (existsb _ r) eqn:X; [|reflexivity]. apply existsb_exists in X. destruct X as (x & Ix & X).
      destruct (pyval_eqb_spec (PStr (a_type x)) (nm u)) as [Y|]; [|discriminate]. injection Y as Y. elim (Nx x Ix Y). }
    pose proof (dget_set (nm u) (Listed [v]) c) as G. unfold c_setitem in G. rewrite C in G |- *. cbn [fst snd] in G.
    set (c1 := journal (new_delta MReplace (nm u) (read2 (Listed [v]))) (with_entry (setitem lower (nm u) (read1 (Listed [v])) (y_entry c)) c)) in *.
    assert (A1 : at_ lower c1 (num_name u) = Some (mkSet (nm u) [v])) by (unfold at_; now rewrite G, pyval_eqb_refl).
    assert (H1 : has_number c1 (num_name u) n) by (exists (mkSet (nm u) [v]), v; auto).
    destruct (notify_journal u 1 fs n fs c1 r rest Dl Dn F H1) as (c' & E & J).
    change (AutofillModel.notify_all lower io iob (AutofillModel.a_setitem lower io iob 2 fs) fs (nm u) c1 = (c', Ok tt)) in E.
    destruct (notify_num u sid fixed 1 fs fs c1 c' (Ok tt) D F E) as (K & _ & R & _ & _).
    exists c'.
    split; [match goal with |- (let (_, _) := ?t in _) = _ => change t with (AutofillModel.notify_all lower io iob (AutofillModel.a_setitem lower io iob 2 fs) fs (nm u) c1) end; now rewrite E|].
    split; [rewrite J; subst c1; cbn [journal y_journal with_entry read2]; now rewrite <- app_assoc|].
    split; [exists (mkSet (nm u) [v]); split; [rewrite (keep_num u u c1 c' K); exact A1|reflexivity]|].
    split; [intros f k t If Id; exact (R f n k t If H1 Id)|].
    split; [rewrite (proj1 K); exact Dn|]. split; [rewrite (proj1 (proj2 K)); exact Dl|].
    intros k Nk Ni. rewrite (proj2 (proj2 K)); [|exact Ni].
    rewrite G. destruct (pyval_eqb_spec (lowv lower k) (lowv lower (nm u))) as [Q|]; [elim (Nk Q)|reflexivity].
  Qed.

  (** The numbers that were found. *)
  Lemma numbers_spec sid fixed a u g r rest : sound lower sid fixed a -> y_deleted (f_cent a) = false -> y_dn (f_cent a) = r :: rest ->
    (forall x, In x r -> ~ In (a_type x) num_names) ->
    exists c', a_step lower oc_first io iob (ANumbers (Ok (u, g))) a = (mkAent c' (f_fillers a ++ [FPosix]), Ok tt) /\
      shows c' (S_ "uidNumber") (dec u) /\ shows c' (S_ "gidNumber") (dec g) /\
      forall f, In f (f_fillers a) -> follows f c'.
  Proof.
    intros Sd Dl Dn Nx.
    assert (N1 : forall z, num io iob (PStr (dec z)) = Ok z) by (intros; apply py_int_dec).
    destruct (assign_spec sid fixed a true (PStr (dec u)) u r rest Sd Dl Dn) as (c1 & E1 & _ & (b1 & B1 & V1) & R1 & Dn1 & Dl1 & K1);
      [intros x Ix Q; apply (Nx x Ix); rewrite Q; now left|apply N1|].
    destruct (step_spec sid fixed _ a _ _ Sd (or_introl (ex_intro _ true eq_refl) : covered_event lower sid fixed (AEdit (CSet (nm true) (Listed [PStr (dec u)])))) E1) as (Sd1 & _).
    destruct (assign_spec sid fixed (mkAent c1 (f_fillers a)) false (PStr (dec g)) g r rest Sd1 Dl1 Dn1) as (c2 & E2 & _ & (b2 & B2 & V2) & R2 & Dn2 & Dl2 & K2);
      [intros x Ix Q; apply (Nx x Ix); rewrite Q; right; now left|apply N1|].
    destruct (step_spec sid fixed _ _ _ _ Sd1 (or_introl (ex_intro _ false eq_refl) : covered_event lower sid fixed (AEdit (CSet (nm false) (Listed [PStr (dec g)])))) E2) as (_ & (_ & _ & Fw & _) & _).
    cbn [f_cent f_fillers] in *.
    assert (S1 : at_ lower c2 (S_ "uidNumber") = Some b1).
    { unfold at_. rewrite K2; [exact B1| |].
      - apply (low_ne (num_name true) (num_name false)); [apply in_app_iff; left; apply nm_in|apply nm_in|now apply nm_ne].
      - intros f m t w Id Q. pose proof (id_in _ _ _ _ _ Id) as It. apply (low_ne (num_name true) t); [apply in_app_iff; left; apply nm_in|apply in_app_iff; now left| |exact Q]. intros <-. exact (id_num _ true It eq_refl). }
    exists c2. split; [|split; [exists b1; auto|split; [exists b2; auto|]]].
    - cbn [a_step got_numbers f_cent f_fillers a_edit] in *.
      destruct (AutofillModel.a_set lower io iob (f_fillers a) (nm true) (Listed [PStr (dec u)]) (f_cent a)) as [x1 y1] eqn:W1. injection E1 as <- ->.
      destruct (AutofillModel.a_set lower io iob (f_fillers a) (nm false) (Listed [PStr (dec g)]) x1) as [x2 y2] eqn:W2. injection E2 as <- ->.
      change (PStr (S_ "uidNumber")) with (nm true). change (PStr (S_ "gidNumber")) with (nm false). rewrite W1, W2. reflexivity.
    - intros f If u' n k v Hn Id. destruct u'.
      + destruct Hn as (b & w & Hb & Hv & Hn). change (num_name true) with (S_ "uidNumber") in Hb. rewrite S1 in Hb. injection Hb as <-. rewrite V1 in Hv. injection Hv as <-. rewrite N1 in Hn. apply Ok_inj in Hn. subst n.
        destruct (R1 f k v If Id) as (b & Q1 & Q2). exists b. split; [|exact Q2].
        unfold at_ in *. rewrite K2; [exact Q1| |].
        * apply (low_ne k (num_name false)); [apply in_app_iff; left; exact (id_all _ _ _ _ _ Id)|apply nm_in|apply id_num; exact (id_in _ _ _ _ _ Id)].
        * intros f' m t w Id'. apply low_ne; [apply in_app_iff; left; exact (id_all _ _ _ _ _ Id)|exact (id_all _ _ _ _ _ Id')|].
          apply (id_sep true false f f' u m k v t w); [discriminate|exact Id|exact Id'].
      + destruct Hn as (b & w & Hb & Hv & Hn). rewrite B2 in Hb. injection Hb as <-. rewrite V2 in Hv. injection Hv as <-. rewrite N1 in Hn. apply Ok_inj in Hn. subst n.
        exact (R2 f k v If Id).
  Qed.
End Autofill.
