(** Proofs for C88 to C90. *)
From Coq Require Import Permutation Sorting.Sorted.
From Verif Require Import Base BaseFacts Utf8Model Utf8Proofs DnModel DnSpec DnProofs EntryModel EntrySpec EntryProofs LdifModel LdifSpec LdifRound SortFacts ServerModel ServerSearch
  InmemProofs OpEqProofs UtilModel UtilSpec UtilProofs FetchSchemaProofs ToolsModel ToolsSpec.

(** ** C88 *)
Lemma events_text evs o e : on_outputs evs o e -> forall n o0 e0 f x,
  fold_left pw_event evs (mkReadpw n (PStr o0) (PStr e0) f x) = mkReadpw n (PStr (o0 ++ o)) (PStr (e0 ++ e)) f x.
Proof.
  induction 1 as [|s evs o e H IH|s evs o e H IH]; intros n o0 e0 f x; cbn [fold_left].
  - now rewrite !app_nil_r.
  - cbn [pw_event]. unfold out_received. cbn [g_out py_add g_count g_err g_fired g_raised]. now rewrite IH, app_assoc.
  - cbn [pw_event]. unfold err_received. cbn [g_err py_add g_count g_out g_fired g_raised]. now rewrite IH, app_assoc.
Qed.
Lemma split_line l t : ~ In 10 l -> split_on 10 (l ++ 10 :: t) = l :: split_on 10 t.
Proof.
  induction l as [|c l IH]; intros N; [reflexivity|]. cbn. destruct (Z.eqb_spec c 10) as [->|]; [destruct N; now left|].
  rewrite IH; [reflexivity|]. intros I. apply N. now right.
Qed.
Lemma split_one l : ~ In 10 l -> split_on 10 l = [l].
Proof.
  induction l as [|c l IH]; intros N; [reflexivity|]. cbn. destruct (Z.eqb_spec c 10) as [->|]; [destruct N; now left|].
  rewrite IH; [reflexivity|]. intros I. apply N. now right.
Qed.
Definition nonempty_lines (s : str) : list str := List.filter (fun l => negb (match l with [] => true | _ => false end)) (split_on 10 s).
Lemma ends_first s t : line_ends s -> nonempty_lines (s ++ t) = nonempty_lines t.
Proof. induction 1 as [|c s -> H IH]; [reflexivity|]. cbn. exact IH. Qed.
Lemma lines_of s ls : text_lines s ls -> nonempty_lines s = ls.
Proof.
  induction 1 as [s H|s l t H N J T|s l t ls H N J M T IH].
  - rewrite <- (app_nil_r s). now rewrite ends_first.
  - rewrite ends_first by exact H. unfold nonempty_lines. destruct T as [|c t -> T].
    + rewrite app_nil_r, split_one by exact J. cbn. now destruct l.
    + rewrite split_line by exact J. cbn [filter]. destruct l as [|c l]; [now destruct N|]. cbn [negb]. f_equal.
      change (nonempty_lines t = []). rewrite <- (app_nil_r t). now rewrite ends_first.
  - rewrite ends_first by exact H. unfold nonempty_lines. rewrite split_line by exact J. cbn [filter]. destruct l as [|c l]; [now destruct N|]. cbn [negb].
    f_equal. exact IH.
Qed.
Lemma lines_total s : exists ls, text_lines s ls.
Proof.
  assert (G : forall n s, (length s <= n)%nat -> exists ls, text_lines s ls); [|exact (G _ s (le_n _))].
  induction n as [|n IH]; intros t L. { destruct t; [|cbn in L; lia]. exists []. apply no_lines. constructor. }
  destruct t as [|c t]; [exists []; apply no_lines; constructor|]. cbn in L. destruct (Z.eq_dec c 10) as [->|Nc].
  - destruct (IH t) as (ls & H); [lia|]. exists ls. destruct H as [s1 H|s1 l u H N J T|s1 l u ls H N J M T].
    + apply no_lines. now constructor.
    + apply (last_line (10 :: s1)); auto. now constructor.
    + apply (more_lines (10 :: s1)); auto. now constructor.
  - assert (C : exists l, l <> [] /\ ~ In 10 l /\ (c :: t = l \/ exists u, c :: t = l ++ 10 :: u)).
    { clear L. revert c Nc. induction t as [|d t IHt]; intros c Nc.
      - exists [c]. split; [discriminate|]. split; [intros [E|[]]; congruence|now left].
      - destruct (Z.eq_dec d 10) as [->|Nd].
        + exists [c]. split; [discriminate|]. split; [intros [E|[]]; congruence|]. right. now exists t.
        + destruct (IHt d Nd) as (l & _ & J & Q). exists (c :: l). split; [discriminate|]. split; [intros [E|E]; [congruence|auto]|].
          destruct Q as [Q|(u & Q)]; rewrite Q; [now left|right]. now exists u. }
    destruct C as (l & N & J & [Q|(u & Q)]); rewrite Q.
    + exists [l]. replace l with ([] ++ l ++ []) at 1 by (now rewrite app_nil_r). apply last_line; auto; constructor.
    + destruct (IH u) as (ls & H). { apply (f_equal (@length _)) in Q. rewrite app_length in Q. cbn in Q. lia. }
      destruct ls as [|x ls].
      * exists [l]. apply (last_line []); auto; [constructor|]. constructor; [reflexivity|]. inversion H; auto.
      * exists (l :: x :: ls). apply (more_lines []); auto; [constructor|discriminate].
Qed.
Lemma generate_text n evs o e : 0 < n -> on_outputs evs o e -> exists g, generate n evs = Ok ([S_ "pwgen"; S_ "-cn1"; S_ "-N"; dec n], g) /\
  (e <> [] -> g_fired g = Some (Err EPwgen) /\ g_raised g = []) /\
  (e = [] -> o = [] -> g_fired g = Some (Err EPwgen) /\ g_raised g = []) /\
  (e = [] -> o <> [] -> forall ls, text_lines o ls ->
     (Z.of_nat (length ls) = n -> g_fired g = Some (Ok ls) /\ g_raised g = []) /\
     (Z.of_nat (length ls) <> n -> g_fired g = Some (Err EPwgen) /\ g_raised g = [EAlreadyCalled])).
Proof.
  intros N H. unfold generate. apply Z.ltb_lt in N. rewrite N. eexists. split; [reflexivity|].
  unfold new_readpw. rewrite (events_text evs o e H). cbn [app]. unfold process_ended. cbn [g_err g_out g_count].
  split; [|split].
  - intros E. destruct e; [now destruct E|]. now split.
  - intros -> ->. now split.
  - intros -> O ls T. cbn [py_true]. destruct o as [|c o]; [now destruct O|]. cbn [out_lines]. apply lines_of in T. unfold nonempty_lines in T. rewrite T. split.
    + intros E. rewrite E, Z.eqb_refl. now split.
    + intros E. apply Z.eqb_neq in E. rewrite E. now split.
Qed.
Lemma generate_octets n evs : 0 < n -> (forall ev, In ev evs -> exists b, ev = GOut (PBytes b) \/ ev = GErr (PBytes b)) ->
  exists a g, generate n evs = Ok (a, g) /\ g_fired g = Some (Err EPwgen) /\ g_raised g = repeat EType (length evs).
Proof.
  intros N H. unfold generate. apply Z.ltb_lt in N. rewrite N. do 2 eexists. split; [reflexivity|].
  assert (G : forall x, fold_left pw_event evs (mkReadpw n (PStr []) (PStr []) None x) = mkReadpw n (PStr []) (PStr []) None (x ++ repeat EType (length evs))).
  { induction evs as [|ev evs IH]; intros x; [now rewrite app_nil_r|]. cbn [fold_left length repeat].
    replace (pw_event _ ev) with (mkReadpw n (PStr []) (PStr []) None (x ++ [EType])).
    - rewrite IH by (intros v I; apply H; now right). now rewrite <- app_assoc.
    - destruct (H ev (or_introl eq_refl)) as (b & [->| ->]); reflexivity. }
  unfold new_readpw. rewrite G. now split.
Qed.

(** ** C89 *)
Lemma NoDup_map_filter {A C} (f : A -> C) (p : A -> bool) l : NoDup (map f l) -> NoDup (map f (List.filter p l)).
Proof.
  induction l as [|x l IH]; intros N; [exact N|]. inversion N as [|? ? N1 N2]; subst. cbn [List.filter]. destruct (p x); [|exact (IH N2)].
  cbn [map]. constructor; [|exact (IH N2)]. intros I. apply N1. apply in_map_iff in I as (y & <- & I). apply filter_In in I as (I & _). now apply in_map.
Qed.
Lemma NoDup_map_in {A C} (f : A -> C) l : (forall x y, In x l -> In y l -> f x = f y -> x = y) -> NoDup l -> NoDup (map f l).
Proof.
  induction l as [|x l IH]; intros H N; [constructor|]. inversion N as [|? ? N1 N2]; subst. cbn [map]. constructor.
  - intros I. apply in_map_iff in I as (y & E & I). apply N1. rewrite (H x y); [exact I|now left|now right|now symmetry].
  - apply IH; [|exact N2]. intros a b Ia Ib. apply H; now right.
Qed.
Lemma pw_dict_spec l : forall a, NoDup (map fst a ++ map (fun kv => py_str (fst kv)) l) ->
  pw_dict l a = Ok (a ++ map (fun kv => (py_str (fst kv), map py_str (snd kv))) l).
Proof.
  induction l as [|(k & vs) l IH]; intros a N; [now rewrite app_nil_r|]. cbn [pw_dict].
  assert (G : pw_get (py_str k) a = None).
  { cbn [map fst] in N. apply NoDup_remove_2 in N. clear IH. induction a as [|(x & ws) a IHa]; [reflexivity|]. cbn [pw_get].
    destruct (str_eqb_spec (py_str k) x) as [<-|Nx]; [destruct N; now left|]. apply IHa. intros I. apply N. now right. }
  rewrite G, IH. { cbn [map fst snd]. now rewrite <- app_assoc. }
  cbn [map fst] in N. rewrite map_app, <- app_assoc. exact N.
Qed.
Lemma pw_get_In k a : NoDup (map fst a) -> forall vs, pw_get k a = Some vs <-> In (k, vs) a.
Proof.
  induction a as [|(x & ws) a IH]; intros N vs; [split; [discriminate|intros []]|]. cbn [pw_get]. inversion N as [|? ? N1 N2]; subst.
  destruct (str_eqb_spec k x) as [->|Nx].
  - split; [intros [= ->]; now left|]. intros [[= ->]|I]; [reflexivity|]. destruct N1. now apply (in_map fst) in I.
  - rewrite (IH N2). split; [now right|]. intros [[= -> _]|I]; [now destruct Nx|exact I].
Qed.
Lemma pw_get_none k a : pw_get k a = None <-> ~ In k (map fst a).
Proof.
  induction a as [|(x & ws) a IH]; [cbn; tauto|]. cbn [pw_get map fst In]. destruct (str_eqb_spec k x) as [->|Nx].
  - split; [discriminate|]. intros N. destruct N. now left.
  - rewrite IH. split; intros N; [intros [E|I]; [congruence|auto]|auto].
Qed.

Section Line.
  Variable lower : str -> str.
  Variable oc : bool.
  Hypothesis LOC : forall s, lower s = S_ "objectclass" <-> ascii_lower s = S_ "objectclass".

  Lemma text_items e : text_entry lower e -> exists l, items lower oc e = Ok l /\ NoDup (map (fun kv => py_str (fst kv)) l) /\
    forall k, ascii_lower k <> S_ "objectclass" -> forall vs, In (k, vs) (map (fun kv => (py_str (fst kv), map py_str (snd kv))) l) <->
      exists a, In a (e_attrs e) /\ s_key a = PStr k /\ vs = map py_str (sort_by pyval_leb (s_vals a)).
  Proof.
    intros (H & N). unfold items.
    assert (OCL : lower (S_ "objectClass") = S_ "objectclass") by (apply LOC; reflexivity).
    assert (A1 : exists l1, oc_part lower oc e = Ok l1 /\ (l1 = [] \/ exists vs, l1 = [(PStr (S_ "objectClass"), vs)])).
    { unfold oc_part.
      set (F := fun k => match dict_get lower k (e_attrs e) with
                         | Some a => match s_vals a with [] => Ok [] | _ => do vs <- sort_to_bytes (s_vals a); Ok [(k, vs)] end
                         | None => Ok [] end).
      assert (F1 : F (PBytes (B "objectClass")) = Ok []).
      { unfold F. destruct (dict_get lower (PBytes (B "objectClass")) (e_attrs e)) as [a|] eqn:G; [|reflexivity]. apply dict_get_some in G as (I & E).
        destruct (H a I) as ((k & b & K & _) & _). rewrite K in E. discriminate. }
      assert (F2 : exists x, F (PStr (S_ "objectClass")) = Ok x /\ (x = [] \/ exists vs, x = [(PStr (S_ "objectClass"), vs)])).
      { unfold F. destruct (dict_get lower (PStr (S_ "objectClass")) (e_attrs e)) as [a|] eqn:G; [|exists []; auto]. apply dict_get_some in G as (I & E).
        destruct (H a I) as (_ & NE & V). destruct (sort_to_bytes_ok (s_vals a)) as (vs & S0 & _). { intros v J. destruct (V v J) as (s & b & -> & U). exists b. exact U. }
        rewrite S0. destruct (s_vals a); [now destruct NE|]. cbn [bind]. eexists. split; [reflexivity|]. right. now exists vs. }
      destruct F2 as (x & F2 & X). exists x. split; [|exact X]. unfold oc_keys. destruct oc; cbn [mapR]; rewrite F1, F2; cbn [bind concat app]; now rewrite ?app_nil_r. }
    destruct A1 as (l1 & -> & X1). cbn [bind].
    unfold other_part.
    assert (M : mapR (fun a => do b <- to_bytes (s_key a); Ok (b, (s_key a, s_vals a))) (e_attrs e) =
                mapR (fun kv : pyval * list pyval => do b <- to_bytes (fst kv); Ok (b, kv)) (map (fun a => (s_key a, s_vals a)) (e_attrs e))).
    { generalize (e_attrs e). intros l. induction l as [|a l IH]; [reflexivity|]. cbn [map mapR fst]. rewrite IH. reflexivity. }
    rewrite M. destruct (sort_bytes_ok fst (map (fun a => (s_key a, s_vals a)) (e_attrs e))) as (ks & K & P).
    { intros x I. apply in_map_iff in I as (a & <- & I). cbn. destruct (H a I) as ((k & b & -> & U) & _). exists b. exact U. }
    rewrite K. cbn [bind]. set (srt := map snd (sort_by (fun x y => bytes_leb (fst x) (fst y)) ks)) in *. clearbody srt.
    set (fl := List.filter (fun kv => negb (is_oc lower (fst kv))) srt).
    assert (IF : forall x, In x fl <-> exists a, In a (e_attrs e) /\ is_oc lower (s_key a) = false /\ x = (s_key a, s_vals a)).
    { intros x. unfold fl. rewrite filter_In, (perm_In _ _ x P), in_map_iff. split.
      - intros ((a & <- & I) & F). exists a. cbn [fst] in F. split; [exact I|]. split; [now apply negb_true_iff in F|reflexivity].
      - intros (a & I & F & ->). split; [eauto|]. cbn [fst]. now rewrite F. }
    assert (L : mapR (fun kv => do vs <- sort_values (snd kv); Ok (fst kv, vs)) fl = Ok (map (fun kv => (fst kv, sort_by pyval_leb (snd kv))) fl)).
    { clear - IF H. assert (V : forall x, In x fl -> all_str (snd x) = true).
      { intros x I. apply IF in I as (a & Ia & _ & ->). cbn [snd]. apply forallb_forall. intros v J. destruct (proj2 (proj2 (H a Ia)) v J) as (s & b & -> & _). reflexivity. }
      clear IF. induction fl as [|x fl IH]; [reflexivity|]. cbn [mapR map]. unfold sort_values at 1. rewrite (V x (or_introl eq_refl)). cbn [orb bind].
      now rewrite IH by (intros y I; apply V; now right). }
    rewrite L. cbn [bind]. eexists. split; [reflexivity|].
    assert (NF : NoDup (map fst fl)).
    { unfold fl. apply NoDup_map_filter. apply (Permutation_NoDup (Permutation_map fst P)). rewrite map_map. cbn [fst].
      apply (NoDup_map_inv (lowv lower)). now rewrite map_map. }
    split.
    - rewrite map_app, map_map. cbn [fst].
      assert (NP : NoDup (map (fun kv : pyval * list pyval => py_str (fst kv)) fl)).
      { rewrite <- (map_map fst py_str). apply NoDup_map_in; [|exact NF]. intros x y I J E. apply in_map_iff in I as ((k & vs) & <- & I), J as ((k' & vs') & <- & J).
        apply IF in I as (a & Ia & _ & [= -> ->]), J as (a' & Ia' & _ & [= -> ->]). cbn [fst] in *.
        destruct (H a Ia) as ((? & ? & K1 & _) & _), (H a' Ia') as ((? & ? & K2 & _) & _). rewrite K1, K2 in *. cbn in E. congruence. }
      destruct X1 as [->|(vs & ->)]; [exact NP|]. cbn [map app fst py_str]. constructor; [|exact NP].
      intros I. apply in_map_iff in I as ((k & ws) & E & I). apply IF in I as (a & Ia & O & [= -> ->]). cbn [fst] in E.
      destruct (H a Ia) as ((k & b & K1 & _) & _). rewrite K1 in *. cbn [py_str] in E. subst k. unfold is_oc in O. cbn [lowv] in O. rewrite OCL in O. discriminate.
    - intros k NK vs. rewrite map_app, in_app_iff. split.
      + intros [I|I].
        * destruct X1 as [->|(ws & ->)]; [destruct I|]. destruct I as [[= <- _]|[]]. destruct NK. reflexivity.
        * apply in_map_iff in I as (x & Q & I). apply in_map_iff in I as (y & <- & I). apply IF in I as (a & Ia & _ & ->). cbn [fst snd] in Q.
          destruct (H a Ia) as ((k' & b & K1 & _) & _). rewrite K1 in Q. cbn [py_str] in Q. injection Q as -> <-. exists a. auto.
      + intros (a & Ia & Ka & ->). right. apply in_map_iff. exists (PStr k, sort_by pyval_leb (s_vals a)). split; [reflexivity|].
        apply in_map_iff. exists (s_key a, s_vals a). split; [now rewrite Ka|]. apply IF. exists a. split; [exact Ia|]. split; [|reflexivity].
        rewrite Ka. unfold is_oc. apply not_true_iff_false. intros O. apply mem_In in O. cbn [lowv] in O. destruct O as [O|[O|[]]]; [|discriminate].
        apply NK. apply LOC. congruence.
  Qed.

  Lemma least_first vs : (forall v, In v vs -> exists s b, v = PStr s /\ utf8_encode s = Ok b) -> vs <> [] ->
    exists v, first_of (map py_str (sort_by pyval_leb vs)) = Ok v /\ In (PStr v) vs /\ forall w, In (PStr w) vs -> str_leb v w = true.
  Proof.
    intros T NE. pose proof (sort_perm pyval_leb vs) as P.
    assert (T2 : forall v, In v (sort_by pyval_leb vs) -> exists s, v = PStr s).
    { intros v I. apply (Permutation_in _ (Permutation_sym P)) in I. destruct (T v I) as (s & b & -> & _). eauto. }
    assert (LL : forall l, (forall v, In v l -> exists s, v = PStr s) -> forall v w r, sort_by pyval_leb l = PStr v :: r -> In (PStr w) l -> str_leb v w = true).
    { clear. induction l as [|x l IH]; intros T v w r E I; [destruct I|]. cbn [sort_by fold_right] in E. fold (sort_by pyval_leb l) in E.
      destruct (T x (or_introl eq_refl)) as (s & ->). assert (T' : forall v, In v l -> exists s, v = PStr s) by (intros y J; apply T; now right).
      pose proof (sort_perm pyval_leb l) as P. destruct (sort_by pyval_leb l) as [|y m] eqn:Q.
      - cbn in E. injection E as E _. apply Permutation_sym, Permutation_nil in P. subst l. destruct I as [I|[]]. replace w with v by congruence. apply str_leb_refl.
      - destruct (T' y) as (t & ->). { apply (Permutation_in _ (Permutation_sym P)). now left. }
        cbn [insert_by pyval_leb] in E. destruct (str_leb s t) eqn:L.
        + injection E as E _. subst s. destruct I as [I|I]; [replace w with v by congruence; apply str_leb_refl|]. eapply str_leb_trans; [exact L|]. exact (IH T' t w m eq_refl I).
        + injection E as E _. subst t. destruct I as [I|I]; [injection I as ->|exact (IH T' v w m eq_refl I)].
          destruct (str_leb_total v w) as [X|X]; [exact X|]. rewrite X in L. discriminate. }
    destruct (sort_by pyval_leb vs) as [|x r] eqn:Q.
    { apply Permutation_sym, Permutation_nil in P. now destruct NE. }
    destruct (T2 x (or_introl eq_refl)) as (v & ->). exists v. split; [reflexivity|]. split.
    - apply (Permutation_in _ (Permutation_sym P)). now left.
    - intros w I. apply (LL vs) with (r := r); auto. intros y J. destruct (T y J) as (s & b & -> & _). eauto.
  Qed.
  Lemma least_unique e k v w : text_entry lower e -> least e k v -> least e k w -> v = w.
  Proof.
    intros (_ & N) (a & I & K & V & L) (b & J & K' & W & M).
    assert (a = b) as <- by (apply (lowkeys_inj lower (e_attrs e)); auto; now rewrite K, K'). apply str_leb_antisym; auto.
  Qed.
  Lemma least_get e k vs : text_entry lower e ->
    (exists a, In a (e_attrs e) /\ s_key a = PStr k /\ vs = map py_str (sort_by pyval_leb (s_vals a))) -> exists v, first_of vs = Ok v /\ least e k v.
  Proof.
    intros (H & _) (a & I & K & ->). destruct (H a I) as (_ & NE & T). destruct (least_first _ T NE) as (v & F & V & L). exists v. split; [exact F|]. exists a. auto.
  Qed.
  Lemma least_has e k v : least e k v -> has_attr e k.
  Proof. intros (a & I & K & _). exists a. auto. Qed.

  (** Looking up in the dict *)
  Lemma dict_of e : text_entry lower e -> exists l a, items lower oc e = Ok l /\ pw_dict l [] = Ok a /\
    forall k, ascii_lower k <> S_ "objectclass" ->
      (forall v, least e k v -> exists vs, pw_get k a = Some vs /\ first_of vs = Ok v) /\ (~ has_attr e k -> pw_get k a = None).
  Proof.
    intros T. destruct (text_items e T) as (l & E & N & H). exists l. eexists. split; [exact E|].
    split; [apply (pw_dict_spec l []); exact N|]. cbn [app]. intros k NK.
    assert (N2 : NoDup (map fst (map (fun kv => (py_str (fst kv), map py_str (snd kv))) l))) by (now rewrite map_map).
    split.
    - intros v L. pose proof L as (a & I & K & _). eexists. split.
      + apply (pw_get_In k _ N2). apply (H k NK). exists a. split; [exact I|]. split; [exact K|reflexivity].
      + destruct (least_get e k (map py_str (sort_by pyval_leb (s_vals a))) T) as (w & F & L'); [eauto|]. now rewrite (least_unique e k v w T L L').
    - intros NH. destruct (pw_get k _) as [vs|] eqn:G; [|reflexivity]. destruct NH. apply (pw_get_In k _ N2) in G. apply (H k NK) in G as (a & I & K & _). exists a. auto.
  Qed.
  Lemma need_least e a k v : (forall v, least e k v -> exists vs, pw_get k a = Some vs /\ first_of vs = Ok v) -> least e k v -> pw_need k a = Ok v.
  Proof. intros H L. destruct (H v L) as (vs & G & F). unfold pw_need. now rewrite G. Qed.

  Lemma line_ok e uid num gid gecos home shell : text_entry lower e ->
    least e (S_ "uid") uid -> least e (S_ "uidNumber") num -> least e (S_ "gidNumber") gid -> least e (S_ "homeDirectory") home ->
    least_or e (S_ "gecos") (least_or e (S_ "cn") (fun v => v = [])) gecos -> least_or e (S_ "loginShell") (fun v => v = []) shell ->
    passwd_line lower oc e = Ok (with_colons [uid; S_ "x"; num; gid; gecos; home; shell] ++ [10]).
  Proof.
    intros T U N G Ho Ge Sh. destruct (dict_of e T) as (l & a & E & D & H). unfold passwd_line. rewrite E. cbn [bind]. rewrite D. cbn [bind].
    rewrite (need_least e a _ uid (proj1 (H (S_ "uid") ltac:(discriminate))) U), (need_least e a _ num (proj1 (H (S_ "uidNumber") ltac:(discriminate))) N),
      (need_least e a _ gid (proj1 (H (S_ "gidNumber") ltac:(discriminate))) G). cbn [bind].
    assert (X : first_of (pw_or (S_ "gecos") a (pw_or (S_ "cn") a [[]])) = Ok gecos).
    { unfold pw_or. destruct (H (S_ "gecos") ltac:(discriminate)) as (A1 & A2), (H (S_ "cn") ltac:(discriminate)) as (B1 & B2).
      destruct Ge as [L|(NG & [L|(NC & ->)])].
      - destruct (A1 _ L) as (vs & -> & F). exact F.
      - rewrite (A2 NG). destruct (B1 _ L) as (vs & -> & F). exact F.
      - rewrite (A2 NG), (B2 NC). reflexivity. }
    rewrite X. cbn [bind]. rewrite (need_least e a _ home (proj1 (H (S_ "homeDirectory") ltac:(discriminate))) Ho). cbn [bind].
    assert (Y : first_of (pw_or (S_ "loginShell") a [[]]) = Ok shell).
    { unfold pw_or. destruct (H (S_ "loginShell") ltac:(discriminate)) as (A1 & A2). destruct Sh as [L|(NS & ->)].
      - destruct (A1 _ L) as (vs & -> & F). exact F.
      - now rewrite (A2 NS). }
    rewrite Y. reflexivity.
  Qed.
  Lemma need_none k a : pw_get k a = None -> pw_need k a = Err EKey.
  Proof. intros G. unfold pw_need. now rewrite G. Qed.
  Lemma need_text e a k : text_entry lower e -> (forall v, least e k v -> exists vs, pw_get k a = Some vs /\ first_of vs = Ok v) -> has_attr e k ->
    exists v, pw_need k a = Ok v.
  Proof.
    intros T H (x & I & K). destruct (least_get e k (map py_str (sort_by pyval_leb (s_vals x))) T) as (v & _ & L); [eauto|]. exists v. now apply (need_least e).
  Qed.
  Lemma line_missing e k : text_entry lower e -> In k [S_ "uid"; S_ "uidNumber"; S_ "gidNumber"; S_ "homeDirectory"] -> ~ has_attr e k ->
    passwd_line lower oc e = Err EKey.
  Proof.
    intros T I NH. destruct (dict_of e T) as (l & a & E & D & H). unfold passwd_line. rewrite E. cbn [bind]. rewrite D. cbn [bind].
    assert (S1 : forall k, ascii_lower k <> S_ "objectclass" -> (exists v, pw_need k a = Ok v) \/ pw_need k a = Err EKey).
    { clear k I NH. intros k NK. destruct (pw_get k a) as [vs|] eqn:G.
      - left. apply (need_text e a k T); [exact (proj1 (H k NK))|]. destruct (text_items e T) as (l' & E' & N' & H'). rewrite E in E'. apply Ok_inj in E'. subst l'.
        rewrite (pw_dict_spec l []) in D by exact N'. apply Ok_inj in D. cbn [app] in D. subst a.
        assert (N2 : NoDup (map fst (map (fun kv => (py_str (fst kv), map py_str (snd kv))) l))) by (now rewrite map_map).
        apply (pw_get_In k _ N2) in G. apply (H' k NK) in G as (x & Ix & Kx & _). exists x. auto.
      - right. now apply need_none. }
    assert (S2 : pw_need k a = Err EKey).
    { apply need_none. destruct I as [<-|[<-|[<-|[<-|[]]]]]; match goal with |- pw_get ?k a = None => now apply (proj2 (H k ltac:(discriminate))) end. }
    destruct (S1 (S_ "uid") ltac:(discriminate)) as [(v1 & E1)|E1]; rewrite E1; cbn [bind]; [|reflexivity].
    destruct (S1 (S_ "uidNumber") ltac:(discriminate)) as [(v2 & E2)|E2]; rewrite E2; cbn [bind]; [|reflexivity].
    destruct (S1 (S_ "gidNumber") ltac:(discriminate)) as [(v3 & E3)|E3]; rewrite E3; cbn [bind]; [|reflexivity].
    destruct I as [<-|[<-|[<-|[<-|[]]]]]; try congruence.
    assert (X : exists v, first_of (pw_or (S_ "gecos") a (pw_or (S_ "cn") a [[]])) = Ok v).
    { pose proof (S1 (S_ "gecos") ltac:(discriminate)) as A1. pose proof (S1 (S_ "cn") ltac:(discriminate)) as A2. unfold pw_or, pw_need in *.
      destruct (pw_get (S_ "gecos") a) as [[|v vs]|]; [destruct A1 as [(? & Q)|Q]; discriminate|eexists; reflexivity|].
      destruct (pw_get (S_ "cn") a) as [[|v vs]|]; [destruct A2 as [(? & Q)|Q]; discriminate|eexists; reflexivity|]. eexists. reflexivity. }
    destruct X as (v4 & ->). cbn [bind]. rewrite S2. reflexivity.
  Qed.
  (** An entry as a client receives it *)
  Lemma line_received d ats : exists x, passwd_line lower oc (new_entry lower d (as_items ats)) = Err x.
  Proof.
    set (e := new_entry lower d (as_items ats)). unfold passwd_line. destruct (items lower oc e) as [l|x] eqn:E; [|eexists; reflexivity]. cbn [bind].
    destruct (pw_dict l []) as [a|x] eqn:D; [|eexists; reflexivity]. cbn [bind].
    assert (K : forall k vs, In (k, vs) l -> py_str k <> S_ "uid").
    { intros k vs I. destruct (items_sound_key lower oc e l E k vs I) as (x & Ix & Kx & _). destruct (key_octets lower d ats x Ix) as (b & Kb).
      destruct Kx as [->|Ik].
      - rewrite Kb. cbn [py_str]. unfold repr_bytes. intros [=].
      - apply oc_keys_In in Ik as [->| ->]; vm_compute; discriminate. }
    assert (G : pw_get (S_ "uid") a = None).
    { assert (Q : forall l a a', pw_dict l a = Ok a' -> (forall k vs, In (k, vs) l -> py_str k <> S_ "uid") -> pw_get (S_ "uid") a = None -> pw_get (S_ "uid") a' = None); [|exact (Q l [] a D K eq_refl)].
      clear. induction l as [|(k & vs) l IH]; intros a a' D K G; [apply Ok_inj in D; now subst|]. cbn [pw_dict] in D.
      destruct (pw_get (py_str k) a) eqn:X; [discriminate|]. apply (IH _ _ D); [intros k' vs' I; apply (K k' vs'); now right|].
      apply pw_get_none. rewrite map_app, in_app_iff. apply pw_get_none in G. intros [I|[I|[]]]; [auto|]. cbn [fst] in I. exact (K k vs (or_introl eq_refl) I). }
    rewrite (need_none _ _ G). eexists. reflexivity.
  Qed.
End Line.
Lemma with_colons_inj l : forall m, Forall (fun s => ~ In 58 s) l -> Forall (fun s => ~ In 58 s) m -> l <> [] -> m <> [] -> with_colons l = with_colons m -> l = m.
Proof.
  assert (C : forall (a b : str) r s, ~ In 58 a -> ~ In 58 b -> a ++ 58 :: r = b ++ 58 :: s -> a = b /\ r = s).
  { induction a as [|x a IH]; intros [|y b] r s A Bn E; cbn [app] in E.
    - injection E as E. auto.
    - injection E as E1 E2. destruct Bn. now left.
    - injection E as E1 E2. destruct A. now left.
    - injection E as E1 E2. subst y. destruct (IH b r s) as (-> & ->); auto; intros I; [apply A|apply Bn]; now right. }
  induction l as [|x l IH]; intros [|y m] L M NL NM E; [now destruct NL|now destruct NL|now destruct NM|].
  inversion L as [|? ? L1 L2]; subst. inversion M as [|? ? M1 M2]; subst. destruct l as [|x2 l], m as [|y2 m].
  - cbn in E. now subst.
  - change (x = y ++ 58 :: with_colons (y2 :: m)) in E. destruct L1. rewrite E. apply in_or_app. right. now left.
  - change (x ++ 58 :: with_colons (x2 :: l) = y) in E. destruct M1. rewrite <- E. apply in_or_app. right. now left.
  - change (x ++ 58 :: with_colons (x2 :: l) = y ++ 58 :: with_colons (y2 :: m)) in E. destruct (C _ _ _ _ L1 M1 E) as (-> & E').
    f_equal. apply IH; auto; discriminate.
Qed.

(** ** C90 *)
Lemma ip_range i : ip_ok i -> 0 <= ip_num i < 2 ^ 32.
Proof. intros (A & Bb & C & D). unfold ip_num. change (2 ^ 24) with 16777216. change (2 ^ 16) with 65536. change (2 ^ 8) with 256. change (2 ^ 32) with 4294967296. lia. Qed.
Lemma ip_split i : ip_ok i -> split_dots (ip_text i) = [dec (ip_a i); dec (ip_b i); dec (ip_c i); dec (ip_d i)].
Proof.
  intros (A & Bb & C & D). change (ip_text i) with (join_dots [dec (ip_a i); dec (ip_b i); dec (ip_c i); dec (ip_d i)]).
  apply split_join_dots; [discriminate|]. repeat apply Forall_cons; try apply Forall_nil; apply dec_no_dot; lia.
Qed.
Lemma mask_land i n : 0 <= i < 2 ^ 32 -> 0 <= n <= 32 -> Z.land i (mask n) = 2 ^ (32 - n) * (i / 2 ^ (32 - n)).
Proof.
  intros I N. assert (M : mask n = Z.shiftl (Z.ones n) (32 - n)).
  { unfold mask. rewrite Z.shiftl_mul_pow2, Z.ones_equiv, Z.mul_pred_l by lia. rewrite <- Z.pow_add_r by lia. replace (n + (32 - n)) with 32 by lia. reflexivity. }
  rewrite M, (Z.mul_comm (2 ^ (32 - n))), <- Z.shiftr_div_pow2, <- Z.shiftl_mul_pow2 by lia. apply Z.bits_inj'. intros k K. rewrite Z.land_spec.
  destruct (Z.lt_ge_cases k (32 - n)) as [L|L].
  - rewrite !Z.shiftl_spec_low by lia. apply andb_false_r.
  - rewrite !Z.shiftl_spec by lia. rewrite Z.shiftr_spec by lia. replace (k - (32 - n) + (32 - n)) with k by lia.
    destruct (Z.lt_ge_cases k 32) as [L2|L2].
    + rewrite Z.ones_spec_low by lia. apply andb_true_r.
    + replace (Z.testbit i k) with false; [reflexivity|]. symmetry. destruct (Z.eq_dec i 0) as [->|NZ]; [apply Z.bits_0|]. apply Z.bits_above_log2; [lia|].
      apply Z.log2_lt_pow2; [lia|]. apply Z.lt_le_trans with (2 ^ 32); [lia|]. apply Z.pow_le_mono_r; lia.
Qed.
Section Nets.
  Variables (io other : str -> res Z).
  Hypothesis IO : int_no_dot io.
  Lemma aton_ip i : ip_ok i -> aton io other (ip_text i) = Ok (ip_num i).
  Proof.
    intros H. unfold aton. set (t := ip_text i).
    assert (D : In 46 t) by (unfold t, ip_text; apply in_or_app; right; now left).
    assert (PI : py_int io t = Err EValue).
    { pose proof (str_uint_dot t D) as SU. pose proof (IO t D) as It. destruct t as [|c r]; [destruct D|].
      destruct (Z.eq_dec c 45) as [->|Nc]; [|now rewrite py_int_plain, SU].
      destruct D as [D|D]; [discriminate|]. destruct r as [|c2 r]; [destruct D|]. unfold py_int. cbn [tl]. now rewrite (str_uint_dot (c2 :: r) D), It. }
    rewrite PI. unfold aton_octets. subst t. rewrite (ip_split i H). cbn [map]. destruct H as (A & Bb & C & D'). now rewrite !octet_dec by lia.
  Qed.
  Lemma aton_mask n t : 0 <= n <= 32 -> mask_text n t -> aton io other t = Ok (mask n).
  Proof.
    intros N [->|(m & M & E & ->)].
    - rewrite aton_dec. do 2 f_equal. lia.
    - now rewrite (aton_ip m M), E.
  Qed.
  Lemma in_net_raw_spec dn name a n tm i : ip_ok a -> ip_ok i -> 0 <= n <= 32 -> mask_text n tm ->
    exists b, in_net_raw io other (mkNet dn name (ip_text a) tm) (ip_text i) = Ok b /\
      (b = true <-> ip_num a mod 2 ^ (32 - n) = 0 /\ ip_num a <= ip_num i < ip_num a + 2 ^ (32 - n)).
  Proof.
    intros A I N M. unfold in_net_raw. cbn [n_address n_mask]. rewrite (aton_ip a A), (aton_mask n tm N M), (aton_ip i I). cbn [bind].
    eexists. split; [reflexivity|]. rewrite Z.eqb_eq, (mask_land _ _ (ip_range i I) N).
    set (p := 2 ^ (32 - n)). assert (P : 0 < p) by (apply Z.pow_pos_nonneg; lia). pose proof (Z.div_mod (ip_num i) p ltac:(lia)) as DM.
    pose proof (Z.mod_pos_bound (ip_num i) p P) as MB. split.
    - intros E. rewrite <- E. split; [rewrite Z.mul_comm; apply Z.mod_mul; lia|lia].
    - intros (E & L). apply Z.mod_divide in E as (q & E); [|lia]. rewrite E in *.
      assert (W : ip_num i / p = q); [|rewrite W; apply Z.mul_comm]. symmetry. apply (Z.div_unique _ _ q (ip_num i - q * p)); lia.
  Qed.
  Lemma in_net_of_raw n i b : in_net_raw io other n i = Ok b -> in_net io other n i = b.
  Proof. intros E. unfold in_net. now rewrite E. Qed.
  Lemma aton_nonneg s z : (forall s z, other s = Ok z -> 0 <= z) -> aton io other s = Ok z -> 0 <= z.
  Proof.
    intros O E. unfold aton in E. destruct (py_int io s) as [i|x] eqn:P.
    - apply Ok_inj in E. subst z. rewrite aton_numbits_mask. apply mask_range. lia.
    - assert (X : aton_octets other s = Ok z) by (destruct x; (discriminate || exact E)). clear E. unfold aton_octets in X.
      destruct (map octet (split_dots s)) as [|[a|] [|[b|] [|[c|] [|[d|] [|]]]]] eqn:Q; try (now apply (O s)).
      assert (R : forall p y, octet p = Some y -> 0 <= y).
      { intros p y H. unfold octet in H. destruct (str_uint p); [|discriminate]. destruct (str_eqb _ p && (0 <=? _) && _) eqn:W; [|discriminate]. injection H as <-.
        apply andb_true_iff in W as (W & _). apply andb_true_iff in W as (_ & W). now apply Z.leb_le. }
      assert (R2 : forall y, In (Some y) (map octet (split_dots s)) -> 0 <= y). { intros y I. apply in_map_iff in I as (p & E & _). now apply (R p). }
      rewrite Q in R2. pose proof (R2 a ltac:(cbn; auto)). pose proof (R2 b ltac:(cbn; auto)). pose proof (R2 c ltac:(cbn; auto)). pose proof (R2 d ltac:(cbn; auto)).
      apply Ok_inj in X. subst z. lia.
  Qed.
  Lemma broadcast_none a m : 0 <= m -> ntoa (Z.lor a (Z.lnot m)) = Err (EUser 4).
  Proof.
    intros M. unfold ntoa. assert (L : Z.lor a (Z.lnot m) < 0) by (apply Z.lor_neg; right; unfold Z.lnot; lia).
    destruct (Z.leb_spec 0 (Z.lor a (Z.lnot m))); [lia|]. reflexivity.
  Qed.
  Lemma no_zone n : (forall s z, other s = Ok z -> 0 <= z) ->
    (exists x, net_forward io other n = Err x) /\ forall d, exists x, net_reverse io other n d = Err x.
  Proof.
    intros O. unfold net_forward, net_reverse. destruct (aton io other (n_address n)) as [a|x]; [|split; [|intros d]; eexists; reflexivity]. cbn [bind].
    destruct (aton io other (n_mask n)) as [m|x] eqn:M; [|split; [|intros d]; eexists; reflexivity]. cbn [bind]. apply aton_nonneg in M; [|exact O].
    rewrite (broadcast_none a m M). split; [|intros d; eexists; reflexivity]. destruct (ntoa m); eexists; reflexivity.
  Qed.
  Lemma no_zone_range dn name a n tm : ip_ok a -> 0 <= n <= 32 -> mask_text n tm ->
    net_forward io other (mkNet dn name (ip_text a) tm) = Err (EUser 4).
  Proof.
    intros A N M. unfold net_forward. cbn [n_address n_mask]. rewrite (aton_ip a A), (aton_mask n tm N M). cbn [bind].
    pose proof (mask_range n N) as R. destruct (ntoa_text io other IO (mask n) R) as (t & -> & _). cbn [bind]. rewrite broadcast_none by lia. reflexivity.
  Qed.
End Nets.
Lemma ptr_text name i : ip_ok i ->
  format_ptr name (ip_text i) = dec (ip_d i) ++ S_ "." ++ dec (ip_c i) ++ S_ "." ++ dec (ip_b i) ++ S_ "." ++ dec (ip_a i) ++ S_ ".in-addr.arpa." ++ [9] ++ S_ "IN PTR" ++ [9] ++ name ++ S_ "." ++ [10].
Proof. intros H. unfold format_ptr. rewrite (ip_split i H). cbn [rev app join_dots]. repeat (rewrite <- !app_assoc; cbn [app]). reflexivity. Qed.
