(** Proofs about options and configuration files (C83). *)
From Verif Require Import Base BaseFacts Utf8Model DnModel DnSpec DnProofs FilterTextModel FilterTextProofs IdentityModel UtilModel UtilSpec UtilProofs ConfigModel ConfigSpec.

Lemma cut_spec c s a b : cut c s = Some (a, b) <-> s = a ++ c :: b /\ ~ In c a.
Proof.
  revert a b. induction s as [|x s IH]; intros a b; cbn [cut].
  - split; [discriminate|]. intros (E & _). destruct a; discriminate.
  - destruct (Z.eqb_spec x c) as [->|N].
    + split; [intros [= <- <-]; split; [reflexivity|intros []]|]. intros (E & I). destruct a as [|y a]; [now injection E as ->|].
      exfalso. apply I. injection E as -> _. now left.
    + destruct (cut c s) as [(p & q)|] eqn:C.
      * destruct (proj1 (IH p q) eq_refl) as (-> & I). split.
        -- intros [= <- <-]. split; [reflexivity|]. intros [->|J]; [now apply N|now apply I].
        -- intros (E & J). destruct a as [|y a]; [exfalso; injection E as -> _; now apply N|]. injection E as -> E.
           assert (R : Some (p, q) = Some (a, b)). { apply IH. split; [exact E|]. intros K. apply J. now right. } now injection R as -> ->.
      * split; [discriminate|]. intros (E & J). destruct a as [|y a]; [exfalso; injection E as -> _; now apply N|]. injection E as -> E.
        assert (R : None = Some (a, b)). { apply IH. split; [exact E|]. intros K. apply J. now right. } discriminate.
Qed.
Lemma cut_none c s : cut c s = None <-> ~ In c s.
Proof.
  induction s as [|x s IH]; cbn [cut]; [split; [intros _ []|reflexivity]|]. destruct (Z.eqb_spec x c) as [->|N].
  - split; [discriminate|]. intros I. exfalso. apply I. now left.
  - destruct (cut c s) as [(p & q)|].
    + split; [discriminate|]. intros I. assert (R : Some (p, q) = None). { apply IH. intros K. apply I. now right. } discriminate.
    + split; [|reflexivity]. intros _ [->|K]; [now apply N|]. now apply (proj1 IH eq_refl).
Qed.

Section C.
  Variable io : Z -> Z -> res Z.
  Variable lower : str -> str.
  Variable hs : str -> Z.
  Variable hb : bytes -> Z.
  Variable isspace : Z -> bool.
  Notation ok := (one_key lower hs).
  Notation setv := (over_set lower hs hb).
  Notation getv := (over_get lower hs hb).
  Notation means := (fun t d => parse_dn io t = Ok d).

  Lemma ok_refl d : ok d d = true.
  Proof. unfold one_key. rewrite Z.eqb_refl. exact (proj1 (dn_eqb_equiv lower) d). Qed.
  Lemma ok_sym d e : ok d e = ok e d.
  Proof.
    unfold one_key. rewrite Z.eqb_sym. f_equal. destruct (dn_eqb_equiv lower) as (_ & S & _).
    destruct (dn_eqb lower d e) eqn:A, (dn_eqb lower e d) eqn:C; try reflexivity; [apply S in A|apply S in C]; congruence.
  Qed.
  Lemma ok_trans d e f : ok d e = true -> ok d f = ok e f.
  Proof.
    unfold one_key. intros H. apply andb_true_iff in H as (H1 & H2). apply Z.eqb_eq in H1. rewrite H1. f_equal.
    destruct (dn_eqb_equiv lower) as (_ & S & T). apply S in H2 as H3.
    destruct (dn_eqb lower d f) eqn:A, (dn_eqb lower e f) eqn:C; try reflexivity.
    - rewrite (T _ _ _ H3 A) in C. discriminate.
    - rewrite (T _ _ _ H2 C) in A. discriminate.
  Qed.
  Lemma match_ok d k : okey_match lower hs hb d (KDn k) = ok d k.
  Proof. unfold okey_match, one_key. cbn. now rewrite Z.eqb_sym. Qed.

  (** A dict whose keys are DNs, no two of them one key. *)
  Fixpoint wf {V} (o : list (okey * V)) : Prop :=
    match o with
    | [] => True
    | (KDn k, _) :: r => getv k r = None /\ wf r
    | _ :: _ => False
    end.
  Lemma get_cons {V} d k (v : V) r : getv d ((KDn k, v) :: r) = if ok d k then Some v else getv d r.
  Proof. unfold over_get. cbn [find fst]. rewrite match_ok. now destruct (ok d k). Qed.
  Lemma get_cong {V} d e (o : list (okey * V)) : wf o -> ok d e = true -> getv d o = getv e o.
  Proof.
    intros W E. induction o as [|([s|t|k] & v) r IH]; [reflexivity|destruct W..|]. rewrite !get_cons. rewrite (ok_trans _ _ k E). destruct (ok e k); [reflexivity|]. exact (IH (proj2 W)).
  Qed.
  Lemma get_set {V} d k (v : V) o : wf o -> getv d (setv k v o) = if ok d k then Some v else getv d o.
  Proof.
    induction o as [|([s|t|x] & w) r IH]; intros W; [|destruct W..|].
    - cbn [over_set]. apply get_cons.
    - cbn [over_set]. rewrite match_ok. destruct (ok k x) eqn:E.
      + rewrite !get_cons. rewrite (ok_sym d x), (ok_sym d k). pose proof (ok_trans _ _ d E) as T. rewrite T. now destruct (ok x d).
      + rewrite !get_cons. destruct W as (W1 & W2). rewrite (IH W2). destruct (ok d x) eqn:A, (ok d k) eqn:C; try reflexivity.
        rewrite (ok_sym d k) in C. rewrite (ok_trans _ _ x C) in E. congruence.
  Qed.
  Lemma wf_set {V} k (v : V) o : wf o -> wf (setv k v o).
  Proof.
    induction o as [|([s|t|x] & w) r IH]; intros W; [|destruct W..|]; cbn [over_set].
    - cbn [wf]. now split.
    - rewrite match_ok. destruct W as (W1 & W2). destruct (ok k x) eqn:E; cbn [wf]; [now split|]. split; [|now apply IH].
      rewrite (get_set _ _ _ _ W2). rewrite ok_sym, E. exact W1.
  Qed.
  (** adding settings one after the other *)
  Definition sets {V} (l : list (dn * V)) (o : list (okey * V)) := fold_left (fun o x => setv (fst x) (snd x) o) l o.
  Lemma sets_spec {V} (l : list (dn * V)) : forall o d, wf o -> wf (sets l o) /\
    getv d (sets l o) = match last_for (ok d) l with Some v => Some v | None => getv d o end.
  Proof.
    induction l as [|(k & v) r IH]; intros o d W; [now split|]. unfold sets in *. cbn [fold_left fst snd last_for].
    destruct (IH (setv k v o) d (wf_set k v o W)) as (W' & G). split; [exact W'|]. rewrite G, get_set by exact W.
    destruct (last_for (ok d) r); [reflexivity|]. now destruct (ok d k).
  Qed.
  Lemma last_app {V} same (a b : list (dn * V)) : last_for same (a ++ b) = match last_for same b with Some v => Some v | None => last_for same a end.
  Proof.
    induction a as [|(k & v) a IH]; cbn [app last_for]; [now destruct (last_for same b)|]. rewrite IH. now destruct (last_for same b).
  Qed.
  Fixpoint key_items {V} (o : list (okey * V)) : list (dn * V) :=
    match o with [] => [] | (KDn d, v) :: r => (d, v) :: key_items r | _ :: r => key_items r end.
  Lemma items_last {V} d (o : list (okey * V)) : wf o -> last_for (ok d) (key_items o) = getv d o.
  Proof.
    induction o as [|([s|t|k] & v) r IH]; intros W; [reflexivity|destruct W..|]. cbn [key_items last_for]. rewrite get_cons. destruct W as (W1 & W2).
    rewrite (IH W2). destruct (ok d k) eqn:E; [|now destruct (getv d r)]. rewrite (get_cong _ _ _ W2 E), W1. reflexivity.
  Qed.
  Lemma own_sets {V} (o : list (okey * V)) : forall o', own_overrides io lower hs hb (dn_items o) o' = Ok (sets (key_items o) o').
  Proof. induction o as [|([s|t|k] & v) r IH]; intros o'; [reflexivity|apply IH..|]. cbn. apply IH. Qed.
  Lemma sets_id {V} (o : list (okey * V)) : wf o -> sets (key_items o) [] = o.
  Proof.
    intros W. enough (G : forall o' : list (okey * V), (forall k v, In (KDn k, v) o -> getv k o' = None) -> wf o' -> sets (key_items o) o' = o' ++ o).
    { apply (G []); [reflexivity|exact I]. }
    induction o as [|([s|t|k] & v) r IH]; intros o' F W'; [unfold sets; cbn; now rewrite app_nil_r|destruct W..|].
    unfold sets. cbn [key_items fold_left fst snd]. destruct W as (W1 & W2).
    assert (E : setv k v o' = o' ++ [(KDn k, v)]).
    { pose proof (F k v (or_introl eq_refl)) as G. clear - G W'. induction o' as [|([s|t|x] & w) r IH]; [reflexivity|destruct W'..|].
      cbn [over_set app]. rewrite match_ok. rewrite get_cons in G. destruct (ok k x); [discriminate|]. f_equal. apply IH; [apply W'|exact G]. }
    change (sets (key_items r) (setv k v o') = o' ++ (KDn k, v) :: r). rewrite IH.
    - rewrite E, <- app_assoc. reflexivity.
    - exact W2.
    - intros k' v' I. rewrite get_set by exact W'. rewrite (F k' v' (or_intror I)). destruct (ok k' k) eqn:Q; [|reflexivity]. exfalso.
      rewrite ok_sym in Q. rewrite (get_cong _ _ _ W2 Q) in W1. clear - I W1 W2. induction r as [|([s|t|x] & w) r IH]; [destruct I|destruct W2..|].
      rewrite get_cons in W1. destruct (ok k' x) eqn:E; [discriminate|]. destruct I as [[= -> ->]|I]; [rewrite ok_refl in E; discriminate|]. apply IH; [exact W1|apply W2|exact I].
    - now apply wf_set.
  Qed.

  (** *** Options *)
  Lemma opt_says o v o' : opt_location io lower hs hb o v = Ok o' <-> exists x, option_says means v x /\ o' = setv (fst x) (snd x) o.
  Proof.
    unfold opt_location. split.
    - intros H. destruct (cut 58 v) as [(base & rest)|] eqn:C; [|discriminate]. apply cut_spec in C as (-> & N).
      destruct (parse_dn io base) as [d|e] eqn:P.
      + destruct (cut 58 rest) as [(host & port)|] eqn:C2.
        * apply cut_spec in C2 as (-> & N2). exists (d, (Some host, Some port)). split; [|now injection H as <-].
          apply (says_port means base host port d N N2 P).
        * apply cut_none in C2. exists (d, (Some rest, None)). split; [|now injection H as <-]. apply (says_host means base rest d N C2 P).
      + exfalso. destruct e; try discriminate. revert H. repeat match goal with |- context [match ?t with _ => _ end] => destruct t end; discriminate.
    - intros (x & S & ->). destruct S as [base host d N N2 P|base host port d N N2 P].
      + replace (cut 58 (base ++ S_ ":" ++ host)) with (Some (base, host)) by (symmetry; apply cut_spec; now split).
        rewrite P. cbn zeta. apply cut_none in N2. now rewrite N2.
      + replace (cut 58 (base ++ S_ ":" ++ host ++ S_ ":" ++ port)) with (Some (base, host ++ S_ ":" ++ port)) by (symmetry; apply cut_spec; now split).
        rewrite P. cbn zeta. replace (cut 58 (host ++ S_ ":" ++ port)) with (Some (host, port)) by (symmetry; apply cut_spec; now split). reflexivity.
  Qed.
  Lemma opts_says vs : forall o o', opt_locations io lower hs hb o vs = Ok o' <-> exists l, Forall2 (option_says means) vs l /\ o' = sets l o.
  Proof.
    induction vs as [|v vs IH]; intros o o'; cbn [opt_locations].
    - split; [intros [= <-]; now exists []|]. intros (l & F & ->). inversion F; subst. reflexivity.
    - split.
      + intros H. destruct (opt_location io lower hs hb o v) as [o1|] eqn:E; [|discriminate]. apply opt_says in E as (x & S & ->).
        apply IH in H as (l & F & ->). exists (x :: l). now split; [constructor|].
      + intros (l & F & ->). inversion F as [|? x ? l' S F']; subst. assert (E : opt_location io lower hs hb o v = Ok (setv (fst x) (snd x) o)) by (apply opt_says; now exists x).
        rewrite E. cbn [bind]. apply IH. now exists l'.
  Qed.

  (** *** Files *)
  Lemma strip_left_spec s : exists a, s = a ++ strip_left isspace s /\ Forall (fun c => isspace c = true) a /\ (forall c v, strip_left isspace s = c :: v -> isspace c = false).
  Proof.
    induction s as [|c s IH]; cbn [strip_left]; [exists []; repeat split; [constructor|discriminate]|]. destruct (isspace c) eqn:E.
    - destruct IH as (a & H1 & H2 & H3). exists (c :: a). split; [cbn; congruence|]. split; [now constructor|exact H3].
    - exists []. split; [reflexivity|]. split; [constructor|]. intros c' v [= <- _]. exact E.
  Qed.
  Lemma strip_trimmed s : trimmed isspace s (strip isspace s).
  Proof.
    unfold strip. destruct (strip_left_spec s) as (a & H1 & H2 & H3). set (t := strip_left isspace s) in *.
    destruct (strip_left_spec (rev t)) as (b & K1 & K2 & K3). set (u := strip_left isspace (rev t)) in *.
    assert (E : t = rev u ++ rev b). { rewrite <- rev_app_distr, <- K1. now rewrite rev_involutive. }
    exists a, (rev b). split; [congruence|]. split; [exact H2|]. split; [now apply Forall_rev|]. split.
    - intros c v Q. apply (H3 c (v ++ rev b)). rewrite E, Q. reflexivity.
    - intros c v Q. apply (K3 c (rev v)). rewrite <- (rev_involutive u), Q, rev_app_distr. reflexivity.
  Qed.
  Lemma space_prefix a : forall u a' u', a ++ u = a' ++ u' -> Forall (fun c => isspace c = true) a -> Forall (fun c => isspace c = true) a' ->
    (forall c v, u = c :: v -> isspace c = false) -> (forall c v, u' = c :: v -> isspace c = false) -> u = u'.
  Proof.
    induction a as [|c a IH]; intros u [|c' a'] u' E A A' N N'.
    - exact E.
    - cbn in E. pose proof (N _ _ E) as Q. pose proof (Forall_inv A') as Q'. cbn beta in Q'. congruence.
    - cbn in E. pose proof (N' _ _ (eq_sym E)) as Q. pose proof (Forall_inv A) as Q'. cbn beta in Q'. congruence.
    - injection E as _ E. exact (IH u a' u' E (Forall_inv_tail A) (Forall_inv_tail A') N N').
  Qed.
  Lemma trimmed_unique s u u' : trimmed isspace s u -> trimmed isspace s u' -> u = u'.
  Proof.
    intros (a & b & E & A & C & N & M) (a' & b' & E' & A' & C' & N' & M').
    (* the first character that is no white space *)
    destruct u as [|x u].
    { destruct u' as [|x' u']; [reflexivity|]. exfalso. assert (F : Forall (fun c => isspace c = true) s) by (rewrite E; apply Forall_app; split; assumption).
      rewrite E' in F. apply Forall_app in F as (_ & F). pose proof (Forall_inv F) as Q. cbn beta in Q. rewrite (N' _ _ eq_refl) in Q. discriminate. }
    destruct u' as [|x' u'].
    { exfalso. assert (F : Forall (fun c => isspace c = true) s) by (rewrite E'; apply Forall_app; split; assumption).
      rewrite E in F. apply Forall_app in F as (_ & F). pose proof (Forall_inv F) as Q. cbn beta in Q. rewrite (N _ _ eq_refl) in Q. discriminate. }
    assert (Q : (x :: u) ++ b = (x' :: u') ++ b').
    { apply (space_prefix a _ a' _ (eq_trans (eq_sym E) E') A A'); intros c v [= <- _]; [exact (N _ _ eq_refl)|exact (N' _ _ eq_refl)]. }
    apply (f_equal (@rev Z)) in Q. rewrite !rev_app_distr in Q.
    assert (R : rev (x :: u) = rev (x' :: u')).
    { apply (space_prefix (rev b) _ (rev b') _ Q); [now apply Forall_rev|now apply Forall_rev| |]; intros c v Q1; [apply (M c (rev v))|apply (M' c (rev v))];
        match goal with |- ?l = _ => rewrite <- (rev_involutive l) end; rewrite Q1; cbn; reflexivity. }
    apply (f_equal (@rev Z)) in R. now rewrite !rev_involutive in R.
  Qed.
  Lemma given_opt sec k x : cfg_opt lower sec k = Ok x <-> given (cfg_get lower sec k) x.
  Proof.
    unfold cfg_opt, given. destruct (cfg_get lower sec k) as [[[|c v]|e]|]; cbn [bind]; (split; [intros Q; try discriminate; now injection Q as <-|intros Q; [now rewrite Q||now destruct Q]]).
  Qed.
  Lemma file_sets f : forall o o', load_overrides io lower hs hb isspace f o = Ok o' <-> exists l, file_says lower isspace (cfg_get lower) means f l /\ o' = sets l o.
  Proof.
    induction f as [|(name & sec) f IH]; intros o o'; cbn [load_overrides].
    - split; [intros [= <-]; exists []; split; [constructor|reflexivity]|]. intros (l & F & ->). inversion F; subst. reflexivity.
    - destruct (lit service_prefix (lower name)) as [t|] eqn:L.
      + apply lit_spec in L. split.
        * intros H. destruct (cfg_opt lower sec (S_ "host")) as [host|] eqn:E1; [|discriminate]. destruct (cfg_opt lower sec (S_ "port")) as [port|] eqn:E2; [|discriminate].
          destruct (parse_dn io (strip isspace (skipn (length service_prefix) name))) as [d|] eqn:P; [|discriminate]. cbn [bind] in H.
          apply IH in H as (l & F & ->). exists ((d, (host, port)) :: l). split; [|reflexivity].
          apply (file_here lower isspace (cfg_get lower) means name sec f l t _ d host port L (strip_trimmed _) P (proj1 (given_opt _ _ _) E1) (proj1 (given_opt _ _ _) E2) F).
        * intros (l & F & ->). inversion F as [|? ? ? ? N F'|? ? ? l' t' base d host port L' T P G1 G2 F']; subst; [exfalso; exact (N _ L)|].
          apply given_opt in G1, G2. rewrite G1, G2. cbn [bind].
          replace (strip isspace (skipn (length service_prefix) name)) with base by (apply (trimmed_unique (skipn 17 name)); [exact T|apply strip_trimmed]).
          rewrite P. cbn [bind]. apply IH. now exists l'.
      + split.
        * intros H. apply IH in H as (l & F & ->). exists l. split; [|reflexivity]. apply file_other; [|exact F]. intros t E. rewrite E in L.
          change (lit service_prefix (service_prefix ++ t) = None) in L. rewrite lit_app in L. discriminate.
        * intros (l & F & ->). inversion F as [|? ? ? ? N F'|? ? ? l' t' base d host port L' T P G1 G2 F']; subst; [apply IH; now exists l|].
          exfalso. rewrite L' in L. change (lit service_prefix (service_prefix ++ t') = None) in L. rewrite lit_app in L. discriminate.
  Qed.

  (** *** All together *)
  Lemma overrides_all vs file t :
    (do o <- opt_locations io lower hs hb [] vs; do c <- new_config io lower hs hb None (Some (dn_items o)) None None; get_overrides io lower hs hb isspace file c) = Ok t <->
    exists ls lf, Forall2 (option_says means) vs ls /\ file_says lower isspace (cfg_get lower) means file lf /\ t = sets (key_items (sets ls [])) (sets lf []).
  Proof.
    split.
    - intros H. destruct (opt_locations io lower hs hb [] vs) as [o|] eqn:E; [|discriminate]. apply opts_says in E as (ls & F & ->). cbn [bind] in H.
      unfold new_config in H. cbn [opt_dn bind] in H. rewrite own_sets in H. cbn [bind] in H.
      assert (W : wf (sets ls (@nil (okey * location)))) by (now apply (sets_spec ls [] [])). rewrite (sets_id _ W) in H. unfold get_overrides in H. cbn [c_over] in H.
      destruct (load_overrides io lower hs hb isspace file []) as [r|] eqn:E; [|discriminate]. apply file_sets in E as (lf & G & ->). cbn [bind] in H.
      rewrite own_sets in H. injection H as <-. now exists ls, lf.
    - intros (ls & lf & F & G & ->). assert (E : opt_locations io lower hs hb [] vs = Ok (sets ls [])) by (apply opts_says; now exists ls). rewrite E. cbn [bind].
      unfold new_config. cbn [opt_dn bind]. rewrite own_sets. cbn [bind]. assert (W : wf (sets ls (@nil (okey * location)))) by (now apply (sets_spec ls [] [])). rewrite (sets_id _ W).
      unfold get_overrides. cbn [c_over]. assert (E' : load_overrides io lower hs hb isspace file [] = Ok (sets lf [])) by (apply file_sets; now exists lf). rewrite E'. cbn [bind]. apply own_sets.
  Qed.
  Lemma all_get (ls lf : list (dn * location)) d :
    getv d (sets (key_items (sets ls [])) (sets lf [])) = last_for (ok d) (lf ++ ls).
  Proof.
    destruct (sets_spec ls [] d I) as (W & G). destruct (sets_spec lf [] d I) as (W' & G').
    destruct (sets_spec (key_items (sets ls [])) (sets lf []) d W') as (_ & G2). rewrite G2, items_last by exact W. rewrite G, G', last_app.
    cbn. destruct (last_for (ok d) ls); [reflexivity|]. now destruct (last_for (ok d) lf).
  Qed.
  Lemma nearest_ext {V} (g h : dn -> option V) d v : (forall x, g x = h x) -> nearest g d v -> nearest h d v.
  Proof.
    intros E. destruct v as [v|]; cbn [nearest].
    - intros (k & L & G & M). exists k. split; [exact L|]. rewrite <- E. split; [exact G|]. intros j Lj. rewrite <- E. now apply M.
    - intros N k. rewrite <- E. apply N.
  Qed.
  Lemma server_spec int_text vs file d srv r :
    (forall k, skipn k d <> [[]]) ->
    (server_for io lower hs hb isspace int_text vs file d srv = Ok r <->
     exists ls lf ov, Forall2 (option_says means) vs ls /\ file_says lower isspace (cfg_get lower) means file lf /\
       nearest (fun x => last_for (ok x) (lf ++ ls)) d ov /\ r = pick int_text ov srv).
  Proof.
    intros N. unfold server_for. split.
    - intros H. assert (X : exists t, (do o <- opt_locations io lower hs hb [] vs; do c <- new_config io lower hs hb None (Some (dn_items o)) None None; get_overrides io lower hs hb isspace file c) = Ok t /\ r = pick int_text (find_override lower hs hb t d) srv).
      { destruct (opt_locations io lower hs hb [] vs) as [o|]; [|discriminate]. cbn [bind] in *.
        destruct (new_config io lower hs hb None (Some (dn_items o)) None None) as [c|]; [|discriminate]. cbn [bind] in *.
        destruct (get_overrides io lower hs hb isspace file c) as [t|]; [|discriminate]. exists t. split; [reflexivity|]. cbn [bind] in H. congruence. }
      destruct X as (t & X & ->). apply overrides_all in X as (ls & lf & F & G & ->).
      exists ls, lf, (find_override lower hs hb (sets (key_items (sets ls [])) (sets lf [])) d). split; [exact F|]. split; [exact G|]. split; [|reflexivity].
      eapply nearest_ext; [|apply find_override_nearest, N]. intros x. apply all_get.
    - intros (ls & lf & ov & F & G & Q & ->).
      assert (X : (do o <- opt_locations io lower hs hb [] vs; do c <- new_config io lower hs hb None (Some (dn_items o)) None None; get_overrides io lower hs hb isspace file c) = Ok (sets (key_items (sets ls [])) (sets lf []))).
      { apply overrides_all. now exists ls, lf. }
      destruct (opt_locations io lower hs hb [] vs) as [o|]; [|discriminate]. cbn [bind] in *.
      destruct (new_config io lower hs hb None (Some (dn_items o)) None None) as [c|]; [|discriminate]. cbn [bind] in *.
      rewrite X. cbn [bind]. f_equal. f_equal.
      pose proof (find_override_nearest lower hs hb (sets (key_items (sets ls [])) (sets lf [])) d N) as Q'.
      eapply (nearest_ext _ (fun x => last_for (ok x) (lf ++ ls))) in Q'; [|intros x; apply all_get].
      revert Q Q'. generalize (fun x => last_for (ok x) (lf ++ ls)). intros g Q Q'.
      destruct ov as [v|], (find_override lower hs hb (sets (key_items (sets ls [])) (sets lf [])) d) as [w|]; cbn [nearest] in *; try reflexivity.
      + destruct Q as (k & _ & G1 & M1), Q' as (k' & _ & G2 & M2). destruct (Nat.lt_total k k') as [L|[->|L]]; [rewrite (M2 _ L) in G1; discriminate|congruence|rewrite (M1 _ L) in G2; discriminate].
      + destruct Q as (k & _ & G1 & _). rewrite Q' in G1. discriminate.
      + destruct Q' as (k & _ & G1 & _). rewrite Q in G1. discriminate.
  Qed.
  (** *** copy *)
  Lemma new_wf {V} b (l : option (list (dnarg * V))) i s c : new_config io lower hs hb b l i s = Ok c -> wf (c_over c).
  Proof.
    unfold new_config. intros H. destruct (opt_dn io b) as [b'|]; [|discriminate]. cbn [bind] in H.
    destruct (own_overrides io lower hs hb match l with Some x => x | None => [] end []) as [o|] eqn:E; [|discriminate]. cbn [bind] in H.
    destruct (opt_dn io i) as [i'|]; [|discriminate]. injection H as <-. cbn [c_over].
    revert E. generalize (match l with Some x => x | None => [] end). intros m. enough (G : forall o0 : list (okey * V), wf o0 -> own_overrides io lower hs hb m o0 = Ok o -> wf o) by (apply (G []); exact I).
    induction m as [|(k & v) m IH]; intros o0 W E; cbn [own_overrides] in E; [congruence|]. destruct (to_dn io k) as [d|]; [|discriminate]. cbn [bind] in E.
    exact (IH _ (wf_set d v o0 W) E).
  Qed.
  Lemma copy_spec {V} (c : config V) b l i s : wf (c_over c) ->
    copy io lower hs hb c b l i s =
    (do c' <- new_config io lower hs hb (match b with Some x => x | None => None end) (match l with Some x => x | None => None end) (match i with Some x => x | None => None end) None;
     Ok (mkConfig (match b with Some _ => c_base c' | None => c_base c end) (match l with Some _ => c_over c' | None => c_over c end)
       (match i with Some _ => c_ibase c' | None => c_ibase c end) (match s with Some x => x | None => c_isearch c end))).
  Proof.
    intros W. unfold copy, new_config. destruct c as [cb co ci cs]. cbn [c_base c_over c_ibase c_isearch] in *.
    assert (Eb : opt_dn io (option_map ADn cb) = Ok cb) by now destruct cb. assert (Ei : opt_dn io (option_map ADn ci) = Ok ci) by now destruct ci.
    assert (Eo : own_overrides io lower hs hb (dn_items co) [] = Ok co) by (rewrite own_sets; f_equal; now apply sets_id).
    destruct b as [b|]; [destruct (opt_dn io b) as [b'|]; cbn [bind opt_dn]; [|reflexivity]|rewrite Eb; cbn [bind opt_dn]];
    (destruct l as [l|]; [match goal with |- context [own_overrides io lower hs hb ?m []] => destruct (own_overrides io lower hs hb m []) as [l'|]; cbn [bind]; [|reflexivity] end|cbn [own_overrides bind]; rewrite Eo; cbn [bind]]);
    (destruct i as [i|]; [destruct (opt_dn io i) as [i'|]; cbn [bind opt_dn]; [|reflexivity]|rewrite Ei; cbn [bind opt_dn]]); reflexivity.
  Qed.
End C.

(** ** The base *)
Lemma assoc_first k sec v : assoc k sec = Some v <-> exists a b, sec = a ++ (k, v) :: b /\ ~ In k (map fst a).
Proof.
  induction sec as [|(x & w) sec IH]; cbn [assoc].
  - split; [discriminate|]. intros ([|] & b & E & _); discriminate.
  - destruct (str_eqb_spec k x) as [->|N].
    + split; [intros [= ->]; exists [], sec; split; [reflexivity|intros []]|]. intros ([|y a] & b & E & M); [now injection E as -> ->|]. injection E as <- _. destruct M. now left.
    + rewrite IH. split.
      * intros (a & b & -> & M). exists ((x, w) :: a), b. split; [reflexivity|]. intros [E|I]; [now symmetry in E|auto].
      * intros ([|y a] & b & E & M); [injection E as <- _ _; now destruct N|]. injection E as <- ->. exists a, b. split; [reflexivity|]. intros I. apply M. now right.
Qed.
Lemma assoc_nil k sec : assoc k sec = None <-> ~ In k (map fst sec).
Proof.
  induction sec as [|(x & w) sec IH]; cbn [assoc map fst In]; [tauto|]. destruct (str_eqb_spec k x) as [->|N].
  - split; [discriminate|]. intros M. destruct M. now left.
  - rewrite IH. split; intros M; [intros [E|I]; [now symmetry in E|auto]|auto].
Qed.
Lemma section_In name file : NoDup (map fst file) -> forall sec, section name file = Some sec <-> In (name, sec) file.
Proof.
  induction file as [|(n & s) file IH]; intros N sec; cbn [section]; [split; [discriminate|intros []]|]. inversion N as [|? ? N1 N2]; subst.
  destruct (str_eqb_spec name n) as [->|Q].
  - split; [intros [= ->]; now left|]. intros [[= ->]|I]; [reflexivity|]. destruct N1. now apply (in_map fst) in I.
  - rewrite (IH N2). split; [now right|]. intros [[= -> _]|I]; [now destruct Q|exact I].
Qed.
Lemma interp_doubled lower look d t : interp lower look (S d) (doubled t) = Ok t.
Proof.
  change (walk lower look (interp lower look d) (S (length (doubled t))) (doubled t) = Ok t).
  enough (G : forall n, (length (doubled t) < n)%nat -> walk lower look (interp lower look d) n (doubled t) = Ok t) by (apply G; lia).
  induction t as [|c t IH]; intros n L; [destruct n; [lia|reflexivity]|]. destruct n as [|n]; [lia|].
  destruct (Z.eqb_spec c 37) as [->|N].
  - change (doubled (37 :: t)) with (37 :: 37 :: doubled t) in *. cbn [length] in L. cbn [walk]. rewrite Z.eqb_refl.
    change (lit (S_ "%") (37 :: doubled t)) with (Some (doubled t)). cbv iota. rewrite IH by lia. reflexivity.
  - assert (E : doubled (c :: t) = c :: doubled t) by (unfold doubled; cbn [flat_map]; apply Z.eqb_neq in N; now rewrite N). rewrite E in *. cbn [length] in L.
    cbn [walk]. apply Z.eqb_neq in N. rewrite N, IH by lia. reflexivity.
Qed.
Lemma get_says lower sec k t : (exists a b, sec = a ++ (k, doubled t) :: b /\ ~ In k (map fst a)) -> cfg_get lower sec k = Some (Ok t).
Proof. intros H. apply assoc_first in H. unfold cfg_get. rewrite H. f_equal. apply (interp_doubled _ _ 9). Qed.
Lemma get_none lower sec k : ~ In k (map fst sec) -> cfg_get lower sec k = None.
Proof. intros H. apply assoc_nil in H. unfold cfg_get. now rewrite H. Qed.
Lemma base_spec {V} lower file (c : config V) : NoDup (map fst file) ->
  (forall d, c_base c = Some d -> get_base lower file c = Ok (ADn d)) /\
  (c_base c = None ->
     (forall t, option_in file (S_ "ldap") (S_ "base") (doubled t) -> get_base lower file c = Ok (AText t)) /\
     (no_option file (S_ "ldap") (S_ "base") -> get_base lower file c = Err EMissingBase)).
Proof.
  intros N. unfold get_base. split; [intros d ->; reflexivity|]. intros ->. split.
  - intros t (sec & a & b & I & E & M). apply (section_In _ _ N) in I. rewrite I, (get_says lower sec (S_ "base") t); [reflexivity|]. eauto.
  - intros H. destruct (section (S_ "ldap") file) as [sec|] eqn:E; [|reflexivity]. apply (section_In _ _ N) in E. now rewrite (get_none lower sec (S_ "base") (H sec E)).
Qed.
Lemma ibase_spec {V} lower file (c : config V) : NoDup (map fst file) ->
  (forall d, c_ibase c = Some d -> get_ibase lower file c = Ok (ADn d)) /\
  (c_ibase c = None ->
     (forall t, option_in file (S_ "authentication") (S_ "identity-base") (doubled t) -> get_ibase lower file c = Ok (AText t)) /\
     (no_option file (S_ "authentication") (S_ "identity-base") -> get_ibase lower file c = get_base lower file c)).
Proof.
  intros N. unfold get_ibase. split; [intros d ->; reflexivity|]. intros ->. split.
  - intros t (sec & a & b & I & E & M). apply (section_In _ _ N) in I. rewrite I, (get_says lower sec (S_ "identity-base") t); [reflexivity|]. eauto.
  - intros H. destruct (section (S_ "authentication") file) as [sec|] eqn:E; [|reflexivity]. apply (section_In _ _ N) in E. now rewrite (get_none lower sec (S_ "identity-base") (H sec E)).
Qed.
