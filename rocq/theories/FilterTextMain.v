(** Printing filters, and filling templates. *)
From Verif Require Import Base BaseFacts Utf8Model DnModel FilterTextModel FilterTextSpec FilterTextProofs.

(** ** Induction on filters *)
Lemma tf_ind' (P : tf -> Prop) :
  (forall fs, Forall P fs -> P (TAnd fs)) -> (forall fs, Forall P fs -> P (TOr fs)) -> (forall f, P f -> P (TNot f)) ->
  (forall c a v, P (TCmp c a v)) -> (forall a, P (TPresent a)) -> (forall a ss, P (TSub a ss)) -> (forall r t v d, P (TExt r t v d)) -> forall f, P f.
Proof.
  intros H1 H2 H3 H4 H5 H6 H7. fix IH 1. intros [fs|fs|f|c a v|a|a ss|r t v d]; [apply H1|apply H2|apply H3|apply H4|apply H5|apply H6|apply H7].
  - induction fs as [|x fs IHfs]; [constructor|]. constructor; [apply IH|exact IHfs].
  - induction fs as [|x fs IHfs]; [constructor|]. constructor; [apply IH|exact IHfs].
  - apply IH.
Qed.

(** ** Printing *)
Section Print.
  Variable esc : str -> res str.
  Variable ok : str -> Prop.
  Hypothesis esc_ok : forall v, ok v -> exists t, esc v = Ok t /\ value_text v t /\ no_tab t.

  Definition starred (l : list str) : str := concat (map (fun t => t ++ [42]) l).
  Lemma join_star_spec x l f : join_star ([x] ++ l ++ [f]) = x ++ 42 :: starred l ++ f.
  Proof.
    revert x. induction l as [|y l IH]; intros x; [reflexivity|]. cbn [app].
    assert (E : join_star (x :: y :: l ++ [f]) = x ++ 42 :: join_star ([y] ++ l ++ [f])) by reflexivity. rewrite E, IH. unfold starred. cbn [map concat].
    now rewrite <- !app_assoc.
  Qed.
  Lemma texts_ok vs : Forall ok vs -> exists ts, Forall2 (fun v t => esc v = Ok t /\ value_text v t /\ no_tab t) vs ts.
  Proof.
    induction 1 as [|v vs O F (ts & IH)]; [exists []; constructor|]. destruct (esc_ok v O) as (t & H). exists (t :: ts). constructor; auto.
  Qed.
  Lemma stars_ok vs ts : Forall2 (fun v t => esc v = Ok t /\ value_text v t /\ no_tab t) vs ts -> stars vs (starred ts) /\ no_tab (starred ts).
  Proof.
    induction 1 as [|v t vs ts (E & V & N) F (IH1 & IH2)]; [split; [constructor|intros []]|]. unfold starred in *. cbn [map concat]. rewrite <- app_assoc. cbn [app]. split; [now constructor|].
    intros J. apply in_app_iff in J as [J|[J|J]]; [exact (N J)|discriminate|exact (IH2 J)].
  Qed.
  Lemma sub_text_anys vs ts f ini any : Forall2 (fun v t => esc v = Ok t /\ value_text v t /\ no_tab t) vs ts -> Forall ok (list_of f) ->
    exists sf, opt_text f sf /\ no_tab sf /\
      sub_text esc (map SAny vs ++ map SFinal (list_of f)) ini any None = Ok (join_star ([match ini with Some x => x | None => [] end] ++ (any ++ ts) ++ [sf])).
  Proof.
    intros F Of. revert any. induction F as [|v t vs ts (E & V & N) F IH]; intros any.
    - destruct f as [v|]; cbn [list_of map app sub_text].
      + cbn [list_of] in Of. apply Forall_inv in Of. destruct (esc_ok v Of) as (t & E & V & N). exists t. split; [exact V|]. split; [exact N|]. rewrite E. cbn [bind]. now rewrite app_nil_r.
      + exists []. split; [reflexivity|]. split; [intros []|]. now rewrite app_nil_r.
    - destruct (IH (any ++ [t])) as (sf & V' & N' & S'). exists sf. split; [exact V'|]. split; [exact N'|]. cbn [map app sub_text]. rewrite E. cbn [bind]. rewrite S'.
      now rewrite <- (app_assoc any [t] ts).
  Qed.
  Lemma name_tab a : is_name a -> no_tab a.
  Proof.
    intros (c & r & -> & L & F) [->|J]; [unfold letter in L; lia|]. rewrite Forall_forall in F. specialize (F 9 J). unfold name_char, letter, decimal in F. lia.
  Qed.
  Lemma number_tab a : is_number a -> no_tab a.
  Proof.
    induction 1 as [d N F|d r N F H IH]; intros J.
    - rewrite Forall_forall in F. specialize (F 9 J). unfold decimal in F. lia.
    - apply in_app_iff in J as [J|[J|J]]; [|discriminate|exact (IH J)]. rewrite Forall_forall in F. specialize (F 9 J). unfold decimal in F. lia.
  Qed.
  Lemma rule_tab a : is_rule a -> no_tab a.
  Proof. intros [H|H]; [now apply name_tab|now apply number_tab]. Qed.
  Lemma tab_app a b : no_tab a -> no_tab b -> no_tab (a ++ b).
  Proof. intros A B J. apply in_app_iff in J as [J|J]; auto. Qed.
  Lemma tab_lit l : existsb (Z.eqb 9) l = false -> no_tab l.
  Proof. intros E J. assert (existsb (Z.eqb 9) l = true) by (apply existsb_exists; exists 9; auto). congruence. Qed.

  Definition texts := fix texts (fs : list tf) : res str := match fs with [] => Ok [] | x :: r => do t <- as_text esc x; do ts <- texts r; Ok (t ++ ts) end.
  Lemma texts_written fs : Forall (fun f => sound_filter ok f -> exists t, as_text esc f = Ok t /\ written f t /\ no_tab t) fs -> Forall (sound_filter ok) fs ->
    exists ss, texts fs = Ok ss /\ written_all fs ss /\ no_tab ss.
  Proof.
    induction 1 as [|f fs H F IH]; intros S; [exists []; split; [reflexivity|]; split; [constructor|intros []]|].
    inversion S as [|? ? S1 S2]; subst. destruct (H S1) as (t & E & W & N). destruct (IH S2) as (ss & E' & W' & N'). exists (t ++ ss). split; [cbn [texts]; now rewrite E; cbn [bind]; rewrite E'|].
    split; [now constructor|now apply tab_app].
  Qed.
  Lemma as_text_written f : sound_filter ok f -> exists t, as_text esc f = Ok t /\ written f t /\ no_tab t.
  Proof.
    induction f as [fs IH|fs IH|f IH|c a v|a|a ss|r t v d] using tf_ind'; intros S; inversion S; subst.
    - destruct (texts_written fs IH ltac:(assumption)) as (ss & E & W & N). change (as_text esc (TAnd fs)) with (do t <- texts fs; Ok (S_ "(&" ++ t ++ S_ ")")). rewrite E. cbn [bind]. eexists. split; [reflexivity|].
      inversion W; subst; [congruence|]. split; [now apply w_and|]. repeat apply tab_app; try (now apply tab_lit); intros J; apply N; apply in_app_iff; auto.
    - destruct (texts_written fs IH ltac:(assumption)) as (ss & E & W & N). change (as_text esc (TOr fs)) with (do t <- texts fs; Ok (S_ "(|" ++ t ++ S_ ")")). rewrite E. cbn [bind]. eexists. split; [reflexivity|].
      inversion W; subst; [congruence|]. split; [now apply w_or|]. repeat apply tab_app; try (now apply tab_lit); intros J; apply N; apply in_app_iff; auto.
    - destruct IH as (t & E & W & N); [assumption|]. cbn [as_text]. rewrite E. cbn [bind]. eexists. split; [reflexivity|]. split; [now constructor|]. repeat apply tab_app; auto; now apply tab_lit.
    - destruct (esc_ok v ltac:(assumption)) as (t & E & V & N). cbn [as_text]. rewrite E. cbn [bind]. eexists. split; [reflexivity|]. split; [now constructor|].
      repeat apply tab_app; auto; try (now apply tab_lit); [now apply name_tab|apply tab_lit; now destruct c].
    - eexists. split; [reflexivity|]. split; [now apply w_present|]. repeat apply tab_app; auto; try (now apply tab_lit). now apply name_tab.
    - match goal with H : ordered ss |- _ => destruct H as (i & vs & f & ->) end.
      match goal with H : Forall _ (_ ++ _) |- _ => apply Forall_app in H as (Fi & Fr); apply Forall_app in Fr as (Fv & Ff) end.
      assert (Ov : Forall ok vs) by (clear - Fv; induction vs; [constructor|]; inversion Fv; subst; constructor; auto).
      assert (Of : Forall ok (list_of f)) by (destruct f; inversion Ff; subst; repeat constructor; auto).
      destruct (texts_ok vs Ov) as (ts & F2). destruct (stars_ok vs ts F2) as (St & Nt).
      assert (Ln : list_of i ++ vs ++ list_of f <> []) by (destruct i, vs, f; try discriminate; match goal with H : _ <> [] |- _ => now destruct H end).
      assert (G : exists si sf, opt_text i si /\ no_tab si /\ opt_text f sf /\ no_tab sf /\
        sub_text esc (map SInitial (list_of i) ++ map SAny vs ++ map SFinal (list_of f)) None [] None = Ok (si ++ 42 :: starred ts ++ sf)).
      { destruct i as [v|]; cbn [list_of map app] in *.
        - apply Forall_inv in Fi. destruct (esc_ok v Fi) as (t & E & V & N). destruct (sub_text_anys vs ts f (Some t) [] F2 Of) as (sf & Vf & Nf & Es).
          exists t, sf. repeat (split; [assumption|]). cbn [sub_text]. rewrite E. cbn [bind]. rewrite Es. now rewrite join_star_spec.
        - destruct (sub_text_anys vs ts f None [] F2 Of) as (sf & Vf & Nf & Es). exists [], sf. split; [reflexivity|]. split; [intros []|]. repeat (split; [assumption|]). rewrite Es. now rewrite join_star_spec. }
      destruct G as (si & sf & Vi & Ni & Vf & Nf & Es). cbn [as_text]. rewrite Es. cbn [bind]. eexists. split; [reflexivity|].
      repeat (rewrite <- app_assoc || rewrite <- app_comm_cons). split; [now apply w_sub|].
      repeat apply tab_app; auto; try (now apply tab_lit); [now apply name_tab|]. change (42 :: starred ts ++ sf ++ S_ ")") with ([42] ++ starred ts ++ sf ++ S_ ")"). repeat apply tab_app; auto; now apply tab_lit.
    - destruct (esc_ok v ltac:(assumption)) as (x & E & V & N). cbn [as_text]. rewrite E. cbn [bind]. eexists. split; [reflexivity|].
      match goal with |- context [Some ?b] => idtac end.
      match goal with |- written (TExt _ _ _ (Some ?b)) _ /\ _ => replace (match Some b with Some true => S_ ":dn" | _ => [] end) with (if b then S_ ":dn" else []) by (now destruct b) end.
      split; [now apply w_ext|].
      repeat apply tab_app; auto; try (now apply tab_lit).
      + destruct t as [a|]; [|intros []]. apply name_tab. auto.
      + destruct d0; [now apply tab_lit|intros []].
      + destruct r as [q|]; [|intros []]. change (58 :: q) with ([58] ++ q). apply tab_app; [now apply tab_lit|]. apply rule_tab. now apply H5.
  Qed.
End Print.

(** ** Templates *)
Section Fill.
  Variable P : Z.
  Hypothesis MP : marker P.
  Variables u eu : str.
  Hypothesis U : value_text u eu.

  Lemma put_app w a b : put P w (a ++ b) = put P w a ++ put P w b.
  Proof. apply flat_map_app. Qed.
  Lemma put_low w s : Forall (fun c => c < 256) s -> put P w s = s.
  Proof. unfold marker in MP. induction 1 as [|c s L F IH]; [reflexivity|]. unfold put in *. cbn [flat_map]. destruct (Z.eqb_spec c P); [lia|]. now rewrite IH. Qed.
  Lemma put_lit w l : forallb (fun c => c <? 256) l = true -> put P w l = l.
  Proof. intros H. apply put_low. rewrite forallb_forall in H. apply Forall_forall. intros c J. specialize (H c J). lia. Qed.
  Lemma name_low a : is_name a -> Forall (fun c => c < 256) a.
  Proof. intros (c & r & -> & L & F). constructor; [unfold letter in L; lia|]. eapply Forall_impl; [|exact F]. intros x H. unfold name_char, letter, decimal in H. lia. Qed.
  Lemma number_low a : is_number a -> Forall (fun c => c < 256) a.
  Proof.
    induction 1 as [d N F|d r N F H IH]; [eapply Forall_impl; [|exact F]; intros x Hx; unfold decimal in Hx; lia|].
    apply Forall_app. split; [eapply Forall_impl; [|exact F]; intros x Hx; unfold decimal in Hx; lia|]. constructor; [lia|exact IH].
  Qed.
  Lemma put_name w a : is_name a -> put P w a = a. Proof. intros. now apply put_low, name_low. Qed.
  Lemma put_rule w a : is_rule a -> put P w a = a. Proof. intros [H|H]; apply put_low; [now apply name_low|now apply number_low]. Qed.
  Lemma hexval_low h x : hexval h = Some x -> h < 256 /\ 0 <= x < 16.
  Proof.
    unfold hexval. destruct ((48 <=? h) && (h <=? 57)) eqn:E1; [intros [= <-]; lia|]. destruct ((65 <=? h) && (h <=? 70)) eqn:E2; [intros [= <-]; lia|].
    destruct ((97 <=? h) && (h <=? 102)) eqn:E3; [intros [= <-]; lia|discriminate].
  Qed.
  Lemma spells_put v s : spells v s -> spells (put P u v) (put P eu s).
  Proof.
    induction 1 as [|c v s N H IH|h l x y v s Hh Hl H IH]; [constructor| |].
    - unfold put in *. cbn [flat_map]. destruct (Z.eqb_spec c P); [apply spells_app; [apply U|exact IH]|]. cbn [app]. now apply sp_plain.
    - destruct (hexval_low h x Hh), (hexval_low l y Hl). change (16 * x + y :: v) with ([16 * x + y] ++ v). change (92 :: h :: l :: s) with ([92; h; l] ++ s).
      rewrite !put_app, (put_low eu [92; h; l]), (put_low u [16 * x + y]) by (repeat constructor; lia). cbn [app]. now apply sp_hex.
  Qed.
  Lemma put_nonempty v : v <> [] -> put P u v <> [].
  Proof. destruct U as (N & _). destruct v as [|c v]; [congruence|]. intros _. unfold put. cbn [flat_map]. destruct (c =? P); [|discriminate]. destruct u; [congruence|discriminate]. Qed.
  Lemma value_put v s : value_text v s -> value_text (put P u v) (put P eu s).
  Proof. intros (N & H). split; [now apply put_nonempty|now apply spells_put]. Qed.
  Lemma stars_put vs ss : stars vs ss -> stars (map (put P u) vs) (put P eu ss).
  Proof.
    induction 1 as [|v s vs ss V H IH]; [constructor|]. cbn [map]. rewrite put_app. change (42 :: ss) with ([42] ++ ss). rewrite put_app, (put_lit eu [42] eq_refl). cbn [app]. constructor; [now apply value_put|exact IH].
  Qed.
  Lemma opt_put o s : opt_text o s -> opt_text (option_map (put P u) o) (put P eu s).
  Proof. destruct o as [v|]; cbn [opt_text option_map]; [apply value_put|now intros ->]. Qed.

  Ltac puts := repeat rewrite put_app; repeat (rewrite (put_lit eu (S_ "(&") eq_refl) || rewrite (put_lit eu (S_ "(|") eq_refl) || rewrite (put_lit eu (S_ "(!") eq_refl) ||
    rewrite (put_lit eu (S_ "(") eq_refl) || rewrite (put_lit eu (S_ ")") eq_refl) || rewrite (put_lit eu (S_ "=*") eq_refl) || rewrite (put_lit eu (S_ "=") eq_refl) || rewrite (put_lit eu (S_ ":=") eq_refl)).
  Lemma written_fill : (forall f s, written f s -> written (fill P u f) (put P eu s)) /\ (forall fs ss, written_all fs ss -> written_all (map (fill P u) fs) (put P eu ss)).
  Proof.
    apply written_both.
    - intros f s fs ss W IH W' IH'. cbn [fill map]. puts. now apply w_and.
    - intros f s fs ss W IH W' IH'. cbn [fill map]. puts. now apply w_or.
    - intros f s W IH. cbn [fill]. puts. now apply w_not.
    - intros c a v s N V. cbn [fill]. puts. rewrite (put_name eu a N), (put_lit eu (cmp_text c)) by (now destruct c). apply w_cmp; [exact N|now apply value_put].
    - intros a N. cbn [fill]. puts. rewrite (put_name eu a N). now apply w_present.
    - intros a i vs f si ss sf N Vi St Vf L. cbn [fill]. replace (S_ "(" ++ a ++ S_ "=" ++ si ++ 42 :: ss ++ sf ++ S_ ")") with (S_ "(" ++ a ++ S_ "=" ++ si ++ [42] ++ ss ++ sf ++ S_ ")") by reflexivity.
      puts. rewrite (put_name eu a N), (put_lit eu [42] eq_refl). cbn [app].
      replace (map (put_sub P u) (map SInitial (list_of i) ++ map SAny vs ++ map SFinal (list_of f))) with
        (map SInitial (list_of (option_map (put P u) i)) ++ map SAny (map (put P u) vs) ++ map SFinal (list_of (option_map (put P u) f))).
      2:{ rewrite !map_app, !map_map. now destruct i, f. }
      apply w_sub; [exact N|now apply opt_put|now apply stars_put|now apply opt_put|].
      intros E. apply L. destruct i; [discriminate|]. destruct vs; [|discriminate]. destruct f; [discriminate|reflexivity].
    - intros ty rule d v s O N R V. cbn [fill]. puts.
      assert (E1 : put P eu match ty with Some a => a | None => [] end = match ty with Some a => a | None => [] end) by (destruct ty; [apply put_name; auto|reflexivity]).
      assert (E2 : put P eu (if d then S_ ":dn" else []) = (if d then S_ ":dn" else [])) by (apply put_lit; now destruct d).
      assert (E3 : put P eu match rule with Some r => 58 :: r | None => [] end = match rule with Some r => 58 :: r | None => [] end).
      { destruct rule as [r|]; [|reflexivity]. change (58 :: r) with ([58] ++ r). rewrite put_app, (put_lit eu [58] eq_refl), (put_rule eu r); [reflexivity|]. now apply R. }
      pose proof (w_ext ty rule d (put P u v) (put P eu s) O N R (value_put v s V)) as W. 
      refine (eq_ind _ (written _) W _ _). f_equal. apply f_equal2; [exact (eq_sym E1)|]. apply f_equal2; [exact (eq_sym E2)|]. apply f_equal2; [exact (eq_sym E3)|]. reflexivity.
    - constructor.
    - intros f s fs ss W IH W' IH'. cbn [map]. puts. now apply wa_cons.
  Qed.
End Fill.
Lemma nesting_fill P u f : nesting (fill P u f) = nesting f.
Proof.
  induction f as [fs IH|fs IH|f IH|c a v|a|a ss|r t v d] using tf_ind'; try reflexivity.
  - cbn [fill]. rewrite !nesting_and. f_equal. induction IH as [|x fs H F IHf]; [reflexivity|]. cbn [map deepest]. now rewrite H, IHf.
  - cbn [fill]. rewrite !nesting_or. f_equal. induction IH as [|x fs H F IHf]; [reflexivity|]. cbn [map deepest]. now rewrite H, IHf.
  - cbn [fill nesting]. now rewrite IH.
Qed.
Lemma put_tab P w s : no_tab s -> no_tab w -> no_tab (put P w s).
Proof.
  intros N W J. unfold put in J. apply in_flat_map in J as (c & K & J). destruct (Z.eqb_spec c P); [exact (W J)|]. destruct J as [->|[]]. exact (N K).
Qed.
Lemma template depth P u eu s f : marker P -> no_tab s -> value_text u eu -> no_tab eu -> parse_filter depth (PStr s) = Ok f ->
  parse_filter depth (PStr (put P eu s)) = Ok (fill P u f).
Proof.
  intros M N U T H. apply (parse_exact depth s f N) in H as (W & D). apply parse_exact; [now apply put_tab|].
  split; [exact (proj1 (written_fill P M u eu U) f s W)|now rewrite nesting_fill].
Qed.
