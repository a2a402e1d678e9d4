(** Proofs about filters as text. *)
From Verif Require Import Base BaseFacts Utf8Model DnModel FilterTextModel FilterTextSpec.

Ltac zb := repeat (rewrite ?Bool.orb_true_iff, ?Bool.andb_true_iff, ?Bool.orb_false_iff, ?Bool.andb_false_iff, ?Z.leb_le, ?Z.leb_gt, ?Z.eqb_eq, ?Z.eqb_neq in *).

Lemma alpha_spec c : alpha c = true <-> letter c.
Proof. unfold alpha, letter. zb. tauto. Qed.
Lemma digit_spec c : digit c = true <-> decimal c.
Proof. unfold digit, decimal. zb. tauto. Qed.
Lemma keychar_spec c : keychar c = true <-> name_char c.
Proof. unfold keychar, name_char. rewrite !Bool.orb_true_iff, alpha_spec, digit_spec. zb. tauto. Qed.
Lemma special_spec c : special c = true <-> In c [42; 40; 41; 92; 0].
Proof. unfold special. zb. cbn. intuition. Qed.
Lemma special_false c : special c = false <-> ~ In c [42; 40; 41; 92; 0].
Proof. rewrite <- special_spec. destruct (special c); intuition congruence. Qed.

Lemma lit_spec l : forall s r, lit l s = Some r <-> s = l ++ r.
Proof.
  induction l as [|x l IH]; intros s r; cbn [lit app]; [split; congruence|]. destruct s as [|c s]; [split; discriminate|].
  destruct (Z.eqb_spec c x) as [->|N]; [rewrite IH; split; congruence|]. split; [discriminate|]. intros [= -> _]. congruence.
Qed.
Lemma lit_app l r : lit l (l ++ r) = Some r. Proof. now apply lit_spec. Qed.
Lemma lit_none x l c s : c <> x -> lit (x :: l) (c :: s) = None.
Proof. intros N. cbn [lit]. destruct (Z.eqb_spec c x); [congruence|reflexivity]. Qed.

Lemma span_sound p : forall s a b, span p s = (a, b) -> s = a ++ b /\ Forall (fun c => p c = true) a.
Proof.
  induction s as [|c s IH]; intros a b; cbn [span]; [intros [= <- <-]; auto|]. destruct (p c) eqn:E; [|intros [= <- <-]; auto].
  destruct (span p s) as (a' & b'). intros [= <- <-]. destruct (IH a' b' eq_refl) as (-> & F). auto.
Qed.
Definition stop (p : Z -> bool) (r : str) : Prop := match r with c :: _ => p c = false | [] => True end.
Lemma span_complete p a r : Forall (fun c => p c = true) a -> stop p r -> span p (a ++ r) = (a, r).
Proof.
  intros F H. induction F as [|c a E F IH]; cbn [app span].
  - destruct r as [|c r]; [reflexivity|]. cbn in *. now rewrite H.
  - now rewrite E, IH.
Qed.

Lemma p_attr_sound s a r : p_attr s = Some (a, r) -> s = a ++ r /\ is_name a.
Proof.
  destruct s as [|c s]; [discriminate|]. cbn [p_attr]. destruct (alpha c) eqn:E; [|discriminate].
  destruct (span keychar s) as (b & t) eqn:S. intros [= <- <-]. apply span_sound in S as (-> & F). split; [reflexivity|].
  exists c, b. split; [reflexivity|]. split; [now apply alpha_spec|]. eapply Forall_impl; [|exact F]. intros x. apply keychar_spec.
Qed.
Lemma p_attr_complete a r : is_name a -> stop keychar r -> p_attr (a ++ r) = Some (a, r).
Proof.
  intros (c & b & -> & L & F) H. cbn [app p_attr]. apply alpha_spec in L. rewrite L, span_complete; [reflexivity| |exact H].
  eapply Forall_impl; [|exact F]. intros x. apply keychar_spec.
Qed.
Lemma is_name_hd a r : is_name a -> exists c t, a ++ r = c :: t /\ letter c.
Proof. intros (c & b & -> & L & _). exists c, (b ++ r). auto. Qed.

Lemma value_go_sound : forall n s v t, (length s <= n)%nat -> value_go s = (v, t) -> exists x, s = x ++ t /\ spells v x.
Proof.
  induction n as [|n IH]; intros s v t Ln.
  { destruct s; [|cbn in Ln; lia]. intros [= <- <-]. exists []. split; [reflexivity|constructor]. }
  destruct s as [|c s]; [intros [= <- <-]; exists []; split; [reflexivity|constructor]|]. cbn [value_go].
  assert (Z0 : forall v t, ([], c :: s) = (v, t) -> exists x, c :: s = x ++ t /\ spells v x).
  { intros ? ? [= <- <-]. exists []. split; [reflexivity|constructor]. }
  destruct (special c) eqn:Sp.
  - destruct (Z.eqb_spec c 92) as [->|]; [|apply Z0]. destruct s as [|h [|l s]]; [apply Z0|apply Z0|].
    destruct (hexval h) as [x|] eqn:Hh; [|apply Z0]. destruct (hexval l) as [y|] eqn:Hl; [|apply Z0].
    destruct (value_go s) as (v' & t') eqn:V. intros Q. assert (Qv := f_equal fst Q). assert (Qt := f_equal snd Q). cbn [fst snd] in Qv, Qt. subst v t.
    destruct (IH s v' t') as (z & -> & Sz); [cbn in Ln; lia|exact V|].
    exists (92 :: h :: l :: z). split; [reflexivity|]. now apply sp_hex.
  - destruct (value_go s) as (v' & t') eqn:V. intros [= <- <-]. destruct (IH s v' t') as (z & -> & Sz); [cbn in Ln; lia|exact V|].
    exists (c :: z). split; [reflexivity|]. apply sp_plain; [now apply special_false|exact Sz].
Qed.
Lemma value_go_complete v s t : spells v s -> value_go t = ([], t) -> value_go (s ++ t) = (v, t).
Proof.
  intros H Ht. induction H as [|c v s N H IH|h l x y v s Hh Hl H IH]; [exact Ht| |].
  - cbn [app value_go]. apply special_false in N. now rewrite N, IH.
  - change ((92 :: h :: l :: s) ++ t) with (92 :: h :: l :: s ++ t). cbn [value_go]. change (special 92) with true. change (92 =? 92) with true.
    cbn iota. now rewrite Hh, Hl, IH.
Qed.
Lemma p_value_sound s v t : p_value s = Some (v, t) -> exists x, s = x ++ t /\ value_text v x.
Proof.
  unfold p_value. destruct (value_go s) as (v' & t') eqn:V. destruct v' as [|c v']; [discriminate|]. intros [= <- <-].
  destruct (value_go_sound (length s) s _ _ (le_n _) V) as (x & -> & H). exists x. split; [reflexivity|]. split; [discriminate|exact H].
Qed.
Lemma p_value_complete v s t : value_text v s -> value_go t = ([], t) -> p_value (s ++ t) = Some (v, t).
Proof. intros (N & H) Ht. unfold p_value. rewrite (value_go_complete v s t H Ht). destruct v; congruence. Qed.
Lemma p_value_none t : value_go t = ([], t) -> p_value t = None.
Proof. unfold p_value. now intros ->. Qed.
Lemma go_star r : value_go (42 :: r) = ([], 42 :: r). Proof. reflexivity. Qed.
Lemma go_close r : value_go (41 :: r) = ([], 41 :: r). Proof. reflexivity. Qed.
Lemma value_hd v s t : value_text v s -> exists c r, s ++ t = c :: r /\ c <> 42.
Proof.
  intros (N & H). destruct H as [|c v s Nc H|h l x y v s Hh Hl H]; [congruence| |].
  - exists c, (s ++ t). split; [reflexivity|]. intros ->. apply Nc. now left.
  - exists 92, (h :: l :: s ++ t). split; [reflexivity|discriminate].
Qed.

Lemma p_cmp_sound s c r : p_cmp s = Some (c, r) -> s = cmp_text c ++ r.
Proof.
  unfold p_cmp. destruct (lit (S_ "=") s) eqn:E1; [apply lit_spec in E1; intros [= <- <-]; exact E1|].
  destruct (lit (S_ "~=") s) eqn:E2; [apply lit_spec in E2; intros [= <- <-]; exact E2|].
  destruct (lit (S_ ">=") s) eqn:E3; [apply lit_spec in E3; intros [= <- <-]; exact E3|].
  destruct (lit (S_ "<=") s) eqn:E4; [apply lit_spec in E4; intros [= <- <-]; exact E4|discriminate].
Qed.
Lemma p_cmp_complete c r : p_cmp (cmp_text c ++ r) = Some (c, r).
Proof. destruct c; reflexivity. Qed.

Lemma p_anys_sound : forall k s vs r, p_anys k s = Some (vs, r) -> exists ss, s = ss ++ r /\ stars vs ss.
Proof.
  induction k as [|k IH]; intros s vs r; cbn [p_anys]; [discriminate|].
  destruct (p_value s) as [(v & s1)|] eqn:V.
  2:{ intros [= <- <-]. exists []. split; [reflexivity|constructor]. }
  destruct (lit (S_ "*") s1) as [s2|] eqn:L.
  2:{ intros [= <- <-]. exists []. split; [reflexivity|constructor]. }
  destruct (p_anys k s2) as [(vs' & s3)|] eqn:A; [|discriminate]. intros [= <- <-].
  apply p_value_sound in V as (x & -> & Vx). apply lit_spec in L. subst s1. destruct (IH _ _ _ A) as (ss & -> & St).
  exists (x ++ 42 :: ss). split; [now rewrite <- app_assoc|now constructor].
Qed.
Lemma p_anys_complete vs ss r : stars vs ss -> (try (v, s1) <- p_value r; try s2 <- lit (S_ "*") s1; Some (v, s2)) = None ->
  forall k, (length ss < k)%nat -> p_anys k (ss ++ r) = Some (vs, r).
Proof.
  intros H N. induction H as [|v s vs ss V H IH]; intros k Lk; (destruct k as [|k]; [lia|]); cbn [p_anys].
  - cbn [app]. now rewrite N.
  - rewrite <- app_assoc. cbn [app]. rewrite (p_value_complete v s _ V (go_star _)).
    change (42 :: ss ++ r) with (S_ "*" ++ ss ++ r). rewrite lit_app, IH; [reflexivity|]. rewrite app_length in Lk. cbn in Lk. lia.
Qed.

(** ** Numbers and rules *)
Lemma number_hd a : is_number a -> exists d t, a = d :: t /\ decimal d.
Proof. intros [d N F|d r N F _]; (destruct d as [|c d]; [congruence|]); inversion F; subst; cbn [app]; eauto. Qed.
Lemma num_go_sound : forall s a r, num_go s = (a, r) -> s = a ++ r /\ (a = [] \/ is_number a \/ exists n, a = 46 :: n /\ is_number n).
Proof.
  induction s as [|c s IH]; intros a r; cbn [num_go]; [intros [= <- <-]; auto|].
  destruct (digit c || _) eqn:E; [|intros [= <- <-]; auto].
  destruct (num_go s) as (a' & r') eqn:N. intros [= <- <-]. destruct (IH _ _ eq_refl) as (Es & H). split; [now rewrite Es|]. right.
  destruct (digit c) eqn:D.
  - left. apply digit_spec in D. destruct H as [->|[H|(n & -> & H)]].
    + apply num_one; [discriminate|auto].
    + destruct H as [e Ne Fe|e q Ne Fe Nq]; [apply num_one; [discriminate|auto]|apply (num_dot (c :: e)); [discriminate|auto|auto]].
    + apply (num_dot [c]); [discriminate|auto|exact H].
  - cbn [orb] in E. destruct (Z.eqb_spec c 46) as [->|]; [|discriminate]. cbn [andb] in E. destruct s as [|d s]; [discriminate|].
    cbn [num_go] in N. rewrite E in N. cbn [orb] in N. destruct (num_go s) as (a2 & r2). injection N as <- <-. right.
    exists (d :: a2). split; [reflexivity|]. destruct H as [H|[H|(n & H & _)]]; [discriminate|exact H|]. injection H as -> _. discriminate.
Qed.
Lemma num_go_digits d r : Forall decimal d -> num_go (d ++ r) = (d ++ fst (num_go r), snd (num_go r)).
Proof.
  induction 1 as [|c d D F IH]; cbn [app]; [now destruct (num_go r)|]. cbn [num_go]. apply digit_spec in D. rewrite D. cbn [orb]. now rewrite IH.
Qed.
Definition num_stop (r : str) : Prop := match r with c :: _ => digit c = false /\ c <> 46 | [] => True end.
Lemma num_go_stop r : num_stop r -> num_go r = ([], r).
Proof. destruct r as [|c r]; [reflexivity|]. intros (D & N). cbn [num_go]. rewrite D. destruct (Z.eqb_spec c 46); [congruence|reflexivity]. Qed.
Lemma num_go_complete a r : is_number a -> num_stop r -> num_go (a ++ r) = (a, r).
Proof.
  intros H St. induction H as [d N F|d n N F H IH].
  - rewrite (num_go_digits d r F), (num_go_stop r St). cbn [fst snd]. now rewrite app_nil_r.
  - rewrite <- app_assoc, (num_go_digits d _ F). cbn [app]. destruct (number_hd n H) as (c & t & -> & D). apply digit_spec in D.
    cbn [app num_go] in *. rewrite D in *. cbn [orb] in *. change (digit 46) with false. cbn [orb Z.eqb Pos.eqb andb]. destruct (num_go (t ++ r)). injection IH as -> ->. reflexivity.
Qed.
Lemma p_oid_sound s a r : p_oid s = Some (a, r) -> s = a ++ r /\ is_rule a.
Proof.
  unfold p_oid. destruct s as [|c s]; [discriminate|]. destruct (digit c) eqn:D.
  - intros Q. assert (E : num_go (c :: s) = (a, r)) by congruence. clear Q. destruct (num_go_sound _ _ _ E) as (Es & H). split; [exact Es|]. right. destruct H as [->|[H|(n & -> & _)]]; [|exact H|].
    + cbn [num_go] in E. rewrite D in E. cbn [orb] in E. destruct (num_go s); discriminate.
    + injection Es as -> _. discriminate.
  - intros H. apply p_attr_sound in H as (Es & N). split; [exact Es|now left].
Qed.
Lemma p_oid_complete a r : is_rule a -> p_oid (a ++ 58 :: r) = Some (a, 58 :: r).
Proof.
  intros [H|H].
  - destruct (is_name_hd a (58 :: r) H) as (c & t & E & L). unfold p_oid. rewrite E. destruct (digit c) eqn:D.
    { apply digit_spec in D. unfold decimal, letter in *. lia. }
    rewrite <- E. now apply p_attr_complete.
  - destruct (number_hd a H) as (c & t & -> & D). apply digit_spec in D. unfold p_oid. cbn [app]. rewrite D. f_equal.
    change (c :: t ++ 58 :: r) with ((c :: t) ++ 58 :: r). apply num_go_complete; [exact H|]. split; [reflexivity|discriminate].
Qed.

(** ** Items *)
Inductive item : tf -> str -> Prop :=
| i_cmp c a v s : is_name a -> value_text v s -> item (TCmp c a v) (a ++ cmp_text c ++ s)
| i_present a : is_name a -> item (TPresent a) (a ++ S_ "=*")
| i_sub a i vs f si ss sf : is_name a -> opt_text i si -> stars vs ss -> opt_text f sf -> list_of i ++ vs ++ list_of f <> [] ->
    item (TSub a (map SInitial (list_of i) ++ map SAny vs ++ map SFinal (list_of f))) (a ++ S_ "=" ++ si ++ 42 :: ss ++ sf)
| i_ext (ty rule : option str) (d : bool) v s :
    (ty <> None \/ rule <> None) -> (forall a, ty = Some a -> is_name a) ->
    (forall r, rule = Some r -> is_rule r /\ (d = false -> ~ starts_dn r)) -> value_text v s ->
    item (TExt rule ty v (Some d)) (match ty with Some a => a | None => [] end ++ (if d then S_ ":dn" else []) ++
       match rule with Some r => 58 :: r | None => [] end ++ S_ ":=" ++ s).
Lemma item_written f t : item f t -> written f (S_ "(" ++ t ++ S_ ")").
Proof.
  intros [c a v s N V|a N|a i vs f' si ss sf N I St F L|ty rule d v s O N R V]; repeat (rewrite <- app_assoc || rewrite <- app_comm_cons); [now apply w_cmp|now apply w_present|now apply w_sub|now apply w_ext].
Qed.
Lemma item_nesting f t : item f t -> nesting f = 1%nat.
Proof. now intros []. Qed.

Lemma p_opt_sound s o r : p_opt s = (o, r) -> exists x, s = x ++ r /\ opt_text o x.
Proof.
  unfold p_opt. destruct (p_value s) as [(v & t)|] eqn:V; intros [= <- <-].
  - apply p_value_sound in V as (x & -> & H). exists x. auto.
  - exists []. split; reflexivity.
Qed.
Lemma p_opt_complete o s t : opt_text o s -> value_go t = ([], t) -> p_opt (s ++ t) = (o, t).
Proof.
  destruct o as [v|]; cbn [opt_text]; intros H Ht; unfold p_opt.
  - now rewrite (p_value_complete v s t H Ht).
  - subst s. cbn [app]. now rewrite (p_value_none t Ht).
Qed.

Lemma longer_cases x y f r : longer x y = Some (f, r) ->
  x = Some (f, r) \/ (y = Some (f, r) /\ forall g q, x = Some (g, q) -> (length r < length q)%nat).
Proof.
  unfold longer. destruct x as [(g & q)|], y as [(h & t)|]; try (intros H; now left).
  - destruct (Nat.ltb_spec (length t) (length q)); intros [= <- <-]; [right|now left]. split; [reflexivity|]. intros g' q' [= <- <-]. assumption.
  - intros H. right. split; [exact H|discriminate].
Qed.
Lemma longer_none x : longer x None = x. Proof. destruct x as [(f & r)|]; reflexivity. Qed.

Lemma p_simple_sound s f r : p_simple s = Some (f, r) -> exists t, s = t ++ r /\ item f t.
Proof.
  unfold p_simple. destruct (p_attr s) as [(a & s1)|] eqn:A; [|discriminate]. destruct (p_cmp s1) as [(c & s2)|] eqn:C; [|discriminate].
  destruct (p_value s2) as [(v & s3)|] eqn:V; [|discriminate]. intros [= <- <-].
  apply p_attr_sound in A as (-> & N). apply p_cmp_sound in C. subst s1. apply p_value_sound in V as (x & -> & Vx).
  exists (a ++ cmp_text c ++ x). split; [now rewrite !app_assoc|now constructor].
Qed.
Lemma p_present_sound s f r : p_present s = Some (f, r) -> exists t, s = t ++ r /\ item f t.
Proof.
  unfold p_present. destruct (p_attr s) as [(a & s1)|] eqn:A; [|discriminate]. destruct (lit (S_ "=*") s1) as [s2|] eqn:L; [|discriminate]. intros [= <- <-].
  apply p_attr_sound in A as (-> & N). apply lit_spec in L. subst s1. exists (a ++ S_ "=*"). split; [now rewrite app_assoc|now constructor].
Qed.
Lemma p_substring_sound s f r : p_substring s = Some (f, r) ->
  (exists t, s = t ++ r /\ item f t) \/ exists a, p_present s = Some (TPresent a, r).
Proof.
  unfold p_substring, p_present. destruct (p_attr s) as [(a & s1)|] eqn:A; [|discriminate]. destruct (lit (S_ "=") s1) as [s2|] eqn:L; [|discriminate].
  destruct (p_opt s2) as (i & s3) eqn:I. destruct (lit (S_ "*") s3) as [s4|] eqn:L4; [|discriminate].
  destruct (p_anys (S (length s4)) s4) as [(vs & s5)|] eqn:An; [|discriminate]. destruct (p_opt s5) as (o & s6) eqn:O. intros [= <- <-].
  apply p_attr_sound in A as (-> & N). apply lit_spec in L. subst s1. apply p_opt_sound in I as (si & -> & Ti). apply lit_spec in L4. subst s3.
  apply p_anys_sound in An as (ss & -> & St). apply p_opt_sound in O as (sf & -> & Tf).
  destruct (list_of i ++ vs ++ list_of o) eqn:E.
  - right. destruct i; [discriminate|]. destruct vs; [|discriminate]. destruct o; [discriminate|]. cbn in Ti, Tf. subst si sf. inversion St; subst.
    exists a. reflexivity.
  - left. exists (a ++ S_ "=" ++ si ++ 42 :: ss ++ sf). split.
    + repeat (rewrite <- app_assoc || rewrite <- app_comm_cons). reflexivity.
    + constructor; auto. rewrite E. discriminate.
Qed.
Lemma p_dn_sound s d r : p_dn s = (d, r) -> s = (if d then S_ ":dn" else []) ++ r /\ (d = false -> lit (S_ ":dn") r = None).
Proof.
  unfold p_dn. destruct (lit (S_ ":dn") s) as [t|] eqn:L; intros [= <- <-].
  - apply lit_spec in L. split; [exact L|discriminate].
  - split; [reflexivity|auto].
Qed.
Lemma dn_free r t : lit (S_ ":dn") (58 :: r ++ t) = None -> ~ starts_dn r.
Proof. intros L (q & ->). discriminate L. Qed.
Lemma p_extensible_sound s f r : p_extensible s = Some (f, r) -> exists t, s = t ++ r /\ item f t.
Proof.
  unfold p_extensible. destruct (p_ext_attr s) as [(g & q)|] eqn:E.
  - intros [= <- <-]. unfold p_ext_attr in E. destruct (p_attr s) as [(a & s1)|] eqn:A; [|discriminate]. destruct (p_dn s1) as (d & s2) eqn:D.
    destruct (p_rule s2) as (ru & s3) eqn:R. destruct (lit (S_ ":=") s3) as [s4|] eqn:L; [|discriminate]. destruct (p_value s4) as [(v & s5)|] eqn:V; [|discriminate].
    injection E as <- <-. apply p_attr_sound in A as (-> & N). apply p_dn_sound in D as (-> & Dn). apply lit_spec in L. subst s3.
    apply p_value_sound in V as (x & -> & Vx). unfold p_rule in R. destruct (lit (S_ ":") s2) as [s2'|] eqn:L2; [destruct (p_oid s2') as [(o & s3')|] eqn:P|].
    + injection R as <- ->. apply lit_spec in L2. subst s2. apply p_oid_sound in P as (-> & Ro).
      eexists. split; [|apply (i_ext (Some a) (Some o) d v x)].
      * repeat (rewrite <- app_assoc || rewrite <- app_comm_cons). reflexivity.
      * left. discriminate.
      * intros b [= <-]. exact N.
      * intros b [= <-]. split; [exact Ro|]. intros Hd. eapply dn_free. exact (Dn Hd).
      * exact Vx.
    + injection R as <- ->. eexists. split; [|apply (i_ext (Some a) None d v x)].
      * repeat (rewrite <- app_assoc || rewrite <- app_comm_cons). reflexivity.
      * left. discriminate.
      * intros b [= <-]. exact N.
      * discriminate.
      * exact Vx.
    + injection R as <- ->. eexists. split; [|apply (i_ext (Some a) None d v x)].
      * repeat (rewrite <- app_assoc || rewrite <- app_comm_cons). reflexivity.
      * left. discriminate.
      * intros b [= <-]. exact N.
      * discriminate.
      * exact Vx.
  - intros H. unfold p_ext_noattr in H. destruct (p_dn s) as (d & s1) eqn:D. destruct (lit (S_ ":") s1) as [s2|] eqn:L1; [|discriminate].
    destruct (p_oid s2) as [(ru & s3)|] eqn:P; [|discriminate]. destruct (lit (S_ ":=") s3) as [s4|] eqn:L; [|discriminate].
    destruct (p_value s4) as [(v & s5)|] eqn:V; [|discriminate]. injection H as <- <-. apply p_dn_sound in D as (-> & Dn). apply lit_spec in L1. subst s1.
    apply p_oid_sound in P as (-> & Ro). apply lit_spec in L. subst s3. apply p_value_sound in V as (x & -> & Vx).
    eexists. split; [|apply (i_ext None (Some ru) d v x)].
    + repeat (rewrite <- app_assoc || rewrite <- app_comm_cons). reflexivity.
    + right. discriminate.
    + discriminate.
    + intros b [= <-]. split; [exact Ro|]. intros Hd. eapply dn_free. exact (Dn Hd).
    + exact Vx.
Qed.
Lemma p_item_sound s f r : p_item s = Some (f, r) -> exists t, s = t ++ r /\ item f t.
Proof.
  unfold p_item. intros H. apply longer_cases in H as [H|(H & _)]; [|now apply p_extensible_sound].
  apply longer_cases in H as [H|(H & M)].
  - apply longer_cases in H as [H|(H & _)]; [now apply p_simple_sound|now apply p_present_sound].
  - apply p_substring_sound in H as [H|(a & Pr)]; [exact H|]. exfalso. rewrite Pr in M.
    destruct (longer (p_simple s) (Some (TPresent a, r))) as [(g & q)|] eqn:E.
    + specialize (M g q eq_refl). unfold longer in E. destruct (p_simple s) as [(h & t)|]; [|injection E as <- <-; lia].
      destruct (Nat.ltb_spec (length r) (length t)); injection E as <- <-; lia.
    + unfold longer in E. destruct (p_simple s) as [(h & t)|]; [|discriminate]. destruct (length r <? length t)%nat; discriminate.
Qed.

Lemma noattr_letter c t : letter c -> p_ext_noattr (c :: t) = None.
Proof.
  intros L. assert (c <> 58) by (unfold letter in L; lia). unfold p_ext_noattr, p_dn. change (S_ ":dn") with [58; 100; 110]. rewrite lit_none by assumption.
  change (S_ ":") with [58]. now rewrite lit_none by assumption.
Qed.
(** After a name, something other than a colon is no extensible match. *)
Lemma ext_none a c t : is_name a -> keychar c = false -> c <> 58 -> p_extensible (a ++ c :: t) = None.
Proof.
  intros N K C. unfold p_extensible, p_ext_attr. rewrite (p_attr_complete a (c :: t) N K). unfold p_dn, p_rule. change (S_ ":dn") with [58; 100; 110].
  change (S_ ":") with [58]. change (S_ ":=") with [58; 61]. rewrite !lit_none by assumption. destruct (is_name_hd a (c :: t) N) as (x & q & -> & L). now apply noattr_letter.
Qed.
(** After a name, a colon is no other item. *)
Lemma colon_none a t : is_name a -> p_simple (a ++ 58 :: t) = None /\ p_present (a ++ 58 :: t) = None /\ p_substring (a ++ 58 :: t) = None.
Proof. intros N. unfold p_simple, p_present, p_substring. now rewrite (p_attr_complete a (58 :: t) N eq_refl). Qed.
Lemma p_attr_none s : (match s with c :: _ => alpha c = false | [] => True end) -> p_attr s = None.
Proof. destruct s as [|c s]; [reflexivity|]. cbn. now intros ->. Qed.
Lemma lit_dn_free r t : is_rule r -> ~ starts_dn r -> lit (S_ ":dn") (58 :: r ++ 58 :: t) = None.
Proof.
  intros R N. destruct (lit (S_ ":dn") (58 :: r ++ 58 :: t)) as [q|] eqn:L; [|reflexivity]. exfalso. apply lit_spec in L. change (S_ ":dn") with [58; 100; 110] in L.
  cbn [app] in L. injection L as L. destruct r as [|c [|d r]]; cbn [app] in L.
  - destruct R as [(x & y & E & _)|H]; [discriminate|]. destruct (number_hd _ H) as (x & y & E & _). discriminate.
  - injection L as -> L. discriminate.
  - injection L as -> -> L. apply N. exists r. reflexivity.
Qed.

Lemma p_item_complete f t r : item f t -> p_item (t ++ 41 :: r) = Some (f, 41 :: r).
Proof.
  intros [c a v s N V|a N|a i vs f' si ss sf N I St F L|ty rule d v s O N R V]; repeat (rewrite <- app_assoc || rewrite <- app_comm_cons); unfold p_item.
  - assert (K : stop keychar (cmp_text c ++ s ++ 41 :: r)) by now destruct c.
    assert (Ps : p_simple (a ++ cmp_text c ++ s ++ 41 :: r) = Some (TCmp c a v, 41 :: r)).
    { unfold p_simple. rewrite (p_attr_complete a _ N K), p_cmp_complete. now rewrite (p_value_complete v s _ V (go_close r)). }
    assert (Pp : p_present (a ++ cmp_text c ++ s ++ 41 :: r) = None).
    { unfold p_present. rewrite (p_attr_complete a _ N K). destruct (value_hd v s (41 :: r) V) as (x & q & E & Nx). rewrite E.
      destruct c; try reflexivity. change (cmp_text CEq ++ x :: q) with (61 :: x :: q). change (S_ "=*") with [61; 42]. cbn [lit Z.eqb Pos.eqb]. destruct (Z.eqb_spec x 42); [congruence|reflexivity]. }
    assert (Pb : p_substring (a ++ cmp_text c ++ s ++ 41 :: r) = None).
    { unfold p_substring. rewrite (p_attr_complete a _ N K). destruct c; try reflexivity. change (cmp_text CEq) with (S_ "="). rewrite lit_app.
      now rewrite (p_opt_complete (Some v) s _ V (go_close r)). }
    assert (Pe : p_extensible (a ++ cmp_text c ++ s ++ 41 :: r) = None).
    { destruct c; (eapply ext_none; [exact N|reflexivity|discriminate]). }
    now rewrite Ps, Pp, Pb, Pe.
  - change (S_ "=*" ++ 41 :: r) with (61 :: 42 :: 41 :: r).
    rewrite (ext_none a 61 _ N eq_refl) by discriminate. rewrite longer_none. unfold p_simple, p_present, p_substring. rewrite (p_attr_complete a (61 :: 42 :: 41 :: r) N eq_refl).
    change (longer (Some (TPresent a, 41 :: r)) (Some (TSub a [], 41 :: r)) = Some (TPresent a, 41 :: r)). unfold longer. now rewrite Nat.ltb_irrefl.
  - change (S_ "=" ++ si ++ 42 :: ss ++ sf ++ 41 :: r) with (61 :: si ++ 42 :: ss ++ sf ++ 41 :: r).
    rewrite (ext_none a 61 _ N eq_refl) by discriminate. rewrite longer_none.
    assert (Pb : p_substring (a ++ 61 :: si ++ 42 :: ss ++ sf ++ 41 :: r) = Some (TSub a (map SInitial (list_of i) ++ map SAny vs ++ map SFinal (list_of f')), 41 :: r)).
    { unfold p_substring. rewrite (p_attr_complete a (61 :: si ++ 42 :: ss ++ sf ++ 41 :: r) N eq_refl). change (61 :: si ++ 42 :: ss ++ sf ++ 41 :: r) with (S_ "=" ++ si ++ 42 :: ss ++ sf ++ 41 :: r). rewrite lit_app.
      rewrite (p_opt_complete i si _ I (go_star _)). change (42 :: ss ++ sf ++ 41 :: r) with (S_ "*" ++ ss ++ sf ++ 41 :: r). rewrite lit_app.
      rewrite (p_anys_complete vs ss (sf ++ 41 :: r) St).
      - now rewrite (p_opt_complete f' sf _ F (go_close r)).
      - destruct f' as [v|]; cbn [opt_text] in F; [now rewrite (p_value_complete v sf _ F (go_close r))|]. subst sf. reflexivity.
      - rewrite app_length. lia. }
    rewrite Pb. unfold p_simple, p_present. rewrite (p_attr_complete a (61 :: si ++ 42 :: ss ++ sf ++ 41 :: r) N eq_refl).
    change (p_cmp (61 :: si ++ 42 :: ss ++ sf ++ 41 :: r)) with (Some (CEq, si ++ 42 :: ss ++ sf ++ 41 :: r)). cbn iota beta.
    assert (Ls : (length (41%Z :: r) < length (42%Z :: ss ++ sf ++ 41%Z :: r))%nat) by (cbn; rewrite !app_length; cbn; lia).
    change (S_ "=*") with [61; 42]. cbn [lit Z.eqb Pos.eqb]. destruct i as [v|]; cbn [opt_text] in I.
    + rewrite (p_value_complete v si _ I (go_star _)). destruct (value_hd v si (42 :: ss ++ sf ++ 41 :: r) I) as (x & q & E & Nx). rewrite E.
      destruct (Z.eqb_spec x 42); [congruence|]. unfold longer. apply Nat.ltb_lt in Ls. now rewrite Ls.
    + subst si. cbn [app]. rewrite (p_value_none _ (go_star _)). change (42 =? 42) with true. cbn iota. unfold longer.
      assert (Q : (length (41%Z :: r) < length (ss ++ sf ++ 41%Z :: r))%nat).
      { cbn [list_of app] in L. rewrite !app_length. cbn [length]. destruct St as [|v s vs ss V St]; [|rewrite app_length; cbn; lia].
        destruct f' as [w|]; [|now destruct L]. cbn [opt_text] in F. destruct F as (Nw & Sw). destruct Sw; [congruence|cbn; lia|cbn; lia]. }
      apply Nat.ltb_lt in Q. now rewrite Q.
  - set (tail := S_ ":=" ++ s ++ 41 :: r).
    assert (D : forall ru, rule = ru -> (match ru with Some x => is_rule x /\ (d = false -> ~ starts_dn x) | None => True end) ->
      p_dn ((if d then S_ ":dn" else []) ++ match ru with Some x => 58 :: x | None => [] end ++ tail) = (d, match ru with Some x => 58 :: x | None => [] end ++ tail)).
    { intros ru _ H. unfold p_dn. destruct d; [now rewrite lit_app|]. cbn [app]. destruct ru as [x|]; [|reflexivity]. destruct H as (Rx & Nx).
      cbn [app]. subst tail. change (S_ ":=" ++ s ++ 41 :: r) with (58 :: 61 :: s ++ 41 :: r). now rewrite (lit_dn_free x _ Rx (Nx eq_refl)). }
    assert (D' : p_dn ((if d then S_ ":dn" else []) ++ match rule with Some x => 58 :: x | None => [] end ++ tail) = (d, match rule with Some x => 58 :: x | None => [] end ++ tail)).
    { apply (D rule eq_refl). destruct rule as [x|]; [exact (R x eq_refl)|exact I]. }
    clear D. unfold tail. rewrite !app_assoc. repeat rewrite <- app_assoc. fold tail.
    destruct ty as [a|].
    + assert (Na : is_name a) by (now apply N). set (rest := (if d then S_ ":dn" else []) ++ match rule with Some x => 58 :: x | None => [] end ++ tail) in *.
      assert (E : exists q, rest = 58 :: q) by (unfold rest, tail; destruct d, rule; eexists; reflexivity). destruct E as (q & E). rewrite E in *.
      destruct (colon_none a q Na) as (-> & -> & ->). cbn [longer]. unfold p_extensible, p_ext_attr. rewrite (p_attr_complete a (58 :: q) Na eq_refl), D'.
      assert (PR : p_rule (match rule with Some x => 58 :: x | None => [] end ++ tail) = (rule, tail)).
      { unfold p_rule. destruct rule as [x|]; [|reflexivity]. change ((58 :: x) ++ tail) with (S_ ":" ++ x ++ 58 :: 61 :: s ++ 41 :: r). rewrite lit_app, p_oid_complete; [reflexivity|]. now apply R. }
      rewrite PR. unfold tail. rewrite lit_app. now rewrite (p_value_complete v s _ V (go_close r)).
    + destruct rule as [x|]; [|destruct O; congruence]. cbn [app] in *. set (rest := (if d then S_ ":dn" else []) ++ 58 :: x ++ tail) in *.
      assert (E : exists q, rest = 58 :: q) by (unfold rest; destruct d; eexists; reflexivity). destruct E as (q & E). rewrite E in *.
      assert (A : p_attr (58 :: q) = None) by reflexivity. unfold p_simple, p_present, p_substring, p_extensible, p_ext_attr, p_ext_noattr. rewrite A, D'. cbn [longer].
      change (58 :: x ++ tail) with (S_ ":" ++ x ++ 58 :: 61 :: s ++ 41 :: r). rewrite lit_app, p_oid_complete by (now apply R).
      change (58 :: 61 :: s ++ 41 :: r) with (S_ ":=" ++ s ++ 41 :: r). rewrite lit_app. now rewrite (p_value_complete v s _ V (go_close r)).
Qed.
Lemma item_hd f t r : item f t -> exists c q, t ++ r = c :: q /\ (letter c \/ c = 58).
Proof.
  intros [c a v s N V|a N|a i vs f' si ss sf N I St F L|ty rule d v s O N R V].
  1-3: rewrite <- app_assoc; edestruct (is_name_hd a) as (x & q & -> & Lx); [exact N|]; exists x, q; auto.
  destruct ty as [a|].
  - rewrite <- app_assoc. destruct (is_name_hd a) with (r := ((if d then S_ ":dn" else []) ++ match rule with Some r0 => 58 :: r0 | None => [] end ++ S_ ":=" ++ s) ++ r) as (x & q & -> & Lx); [now apply N|]. exists x, q. auto.
  - destruct d; [eexists _, _; split; [reflexivity|now right]|]. destruct rule as [x|]; eexists _, _; (split; [reflexivity|now right]).
Qed.

(** ** Filters *)
Fixpoint deepest (fs : list tf) : nat := match fs with [] => 0%nat | x :: r => Nat.max (nesting x) (deepest r) end.
Lemma nesting_and fs : nesting (TAnd fs) = S (deepest fs).
Proof. reflexivity. Qed.
Lemma nesting_or fs : nesting (TOr fs) = S (deepest fs).
Proof. reflexivity. Qed.

Lemma p_many_sound n : (forall s f r, p_filter n s = POk f r -> exists t, s = t ++ r /\ written f t /\ (nesting f <= n)%nat) ->
  forall k s fs r, p_many (p_filter n) k s = POk fs r -> exists t, s = t ++ r /\ written_all fs t /\ (deepest fs <= n)%nat.
Proof.
  intros P. induction k as [|k IH]; intros s fs r; cbn [p_many]; [discriminate|]. destruct (p_filter n s) as [f s1| |] eqn:E; [|intros [= <- <-]; exists []; split; [reflexivity|]; split; [constructor|cbn; lia]|discriminate].
  destruct (p_many (p_filter n) k s1) as [gs s2| |] eqn:M; try discriminate. intros [= <- <-].
  destruct (P _ _ _ E) as (t & -> & W & Nf). destruct (IH _ _ _ M) as (u & -> & Wu & Nu).
  exists (t ++ u). split; [now rewrite app_assoc|]. split; [now constructor|cbn [deepest]; lia].
Qed.
Lemma p_list_sound n s fs r : (forall s f r, p_filter n s = POk f r -> exists t, s = t ++ r /\ written f t /\ (nesting f <= n)%nat) ->
  p_list (p_filter n) s = POk fs r -> exists g gs t u, fs = g :: gs /\ s = (t ++ u) ++ r /\ written g t /\ written_all gs u /\ (deepest fs <= n)%nat.
Proof.
  intros P. unfold p_list. destruct (p_many (p_filter n) (S (length s)) s) as [gs s2| |] eqn:M; [|discriminate|discriminate].
  destruct gs as [|g gs]; [discriminate|]. intros [= <- <-]. destruct (p_many_sound n P _ _ _ _ M) as (t & E & W & D). inversion W; subst. eauto 10.
Qed.
Lemma p_filter_sound : forall n s f r, p_filter n s = POk f r -> exists t, s = t ++ r /\ written f t /\ (nesting f <= n)%nat.
Proof.
  induction n as [|n IH]; intros s f r; cbn [p_filter]; [discriminate|]. destruct (lit (S_ "(") s) as [s1|] eqn:L; [|discriminate]. apply lit_spec in L. subst s.
  destruct (p_comp (p_filter n) s1) as [g s2| |] eqn:C; [|discriminate|discriminate]. destruct (lit (S_ ")") s2) as [s3|] eqn:L2; [|discriminate].
  intros [= <- <-]. apply lit_spec in L2. subst s2. unfold p_comp in C.
  destruct (lit (S_ "&") s1) as [q|] eqn:L1.
  { apply lit_spec in L1. subst s1. destruct (p_list (p_filter n) q) as [fs s2| |] eqn:P; try discriminate. injection C as <- ->.
    destruct (p_list_sound n q fs _ IH P) as (x & xs & t & u & -> & -> & W & Wu & D). exists (S_ "(&" ++ (t ++ u) ++ S_ ")"). split; [cbn; now rewrite <- !app_assoc|].
    split; [now constructor|]. rewrite nesting_and. lia. }
  destruct (lit (S_ "|") s1) as [q|] eqn:L3.
  { apply lit_spec in L3. subst s1. destruct (p_list (p_filter n) q) as [fs s2| |] eqn:P; try discriminate. injection C as <- ->.
    destruct (p_list_sound n q fs _ IH P) as (x & xs & t & u & -> & -> & W & Wu & D). exists (S_ "(|" ++ (t ++ u) ++ S_ ")"). split; [cbn; now rewrite <- !app_assoc|].
    split; [now constructor|]. rewrite nesting_or. lia. }
  destruct (lit (S_ "!") s1) as [q|] eqn:L4.
  { apply lit_spec in L4. subst s1. destruct (p_filter n q) as [x s2| |] eqn:P; try discriminate. injection C as <- ->.
    destruct (IH _ _ _ P) as (t & -> & W & D). exists (S_ "(!" ++ t ++ S_ ")"). split; [cbn; now rewrite <- !app_assoc|]. split; [now constructor|]. cbn [nesting]. lia. }
  destruct (p_item s1) as [(x & t)|] eqn:P; [|discriminate]. injection C as <- ->. apply p_item_sound in P as (t & -> & It).
  exists (S_ "(" ++ t ++ S_ ")"). split; [cbn; now rewrite <- !app_assoc|]. split; [now apply item_written|]. rewrite (item_nesting _ _ It). lia.
Qed.

Lemma p_filter_close n r : p_filter (S n) (41 :: r) = PNo.
Proof. reflexivity. Qed.
Lemma p_filter_item f t n r : item f t -> (nesting f <= n)%nat -> p_filter n ((S_ "(" ++ t ++ S_ ")") ++ r) = POk f r.
Proof.
  intros It Nn. rewrite (item_nesting _ _ It) in Nn. destruct n as [|n]; [lia|]. cbn [p_filter]. rewrite <- !app_assoc, lit_app. change (S_ ")" ++ r) with (41 :: r).
  unfold p_comp. rewrite (p_item_complete f t r It). destruct (item_hd f t (41 :: r) It) as (c & q & -> & Hc).
  change (S_ "&") with [38]. change (S_ "|") with [124]. change (S_ "!") with [33]. rewrite !lit_none by (unfold letter in Hc; lia). reflexivity.
Qed.
Lemma written_length f t : written f t -> (0 < length t)%nat.
Proof. intros []; cbn; lia. Qed.
Lemma p_filter_complete :
  (forall f t, written f t -> forall n r, (nesting f <= n)%nat -> p_filter n (t ++ r) = POk f r) /\
  (forall fs t, written_all fs t -> forall n k r, (deepest fs <= n)%nat -> (0 < n)%nat -> (length t < k)%nat -> p_many (p_filter n) k (t ++ 41 :: r) = POk fs (41 :: r)).
Proof.
  assert (LIST : forall f s fs ss, written f s -> (forall n r, (nesting f <= n)%nat -> p_filter n (s ++ r) = POk f r) ->
    (forall n k r, (deepest fs <= n)%nat -> (0 < n)%nat -> (length ss < k)%nat -> p_many (p_filter n) k (ss ++ 41 :: r) = POk fs (41 :: r)) ->
    forall n r, (deepest (f :: fs) <= n)%nat -> p_list (p_filter n) ((s ++ ss) ++ 41 :: r) = POk (f :: fs) (41 :: r)).
  { intros f s fs ss W IHf IHs n r D. cbn [deepest] in D. unfold p_list. rewrite <- app_assoc. cbn [p_many]. rewrite IHf by lia.
    rewrite IHs; [reflexivity|lia| |].
    - assert (0 < nesting f)%nat by (destruct f; cbn; lia). lia.
    - pose proof (written_length f s W). rewrite !app_length. lia. }
  apply written_both.
  - intros f s fs ss W IHf _ IHs n r D. rewrite nesting_and in D. destruct n as [|n]; [lia|]. cbn [p_filter]. change ((S_ "(&" ++ (s ++ ss) ++ S_ ")") ++ r) with (S_ "(" ++ S_ "&" ++ (((s ++ ss) ++ S_ ")") ++ r)).
    rewrite lit_app. unfold p_comp. rewrite lit_app. rewrite <- app_assoc. change (S_ ")" ++ r) with (41 :: r). rewrite (LIST f s fs ss W IHf IHs n r) by lia. reflexivity.
  - intros f s fs ss W IHf _ IHs n r D. rewrite nesting_or in D. destruct n as [|n]; [lia|]. cbn [p_filter]. change ((S_ "(|" ++ (s ++ ss) ++ S_ ")") ++ r) with (S_ "(" ++ S_ "|" ++ (((s ++ ss) ++ S_ ")") ++ r)).
    rewrite lit_app. unfold p_comp. change (lit (S_ "&") (S_ "|" ++ ((s ++ ss) ++ S_ ")") ++ r)) with (@None str). rewrite lit_app. rewrite <- app_assoc. change (S_ ")" ++ r) with (41 :: r). rewrite (LIST f s fs ss W IHf IHs n r) by lia. reflexivity.
  - intros f s W IHf n r D. cbn [nesting] in D. destruct n as [|n]; [lia|]. cbn [p_filter]. change ((S_ "(!" ++ s ++ S_ ")") ++ r) with (S_ "(" ++ S_ "!" ++ (s ++ S_ ")") ++ r).
    rewrite lit_app. unfold p_comp. change (lit (S_ "&") (S_ "!" ++ (s ++ S_ ")") ++ r)) with (@None str). change (lit (S_ "|") (S_ "!" ++ (s ++ S_ ")") ++ r)) with (@None str). rewrite lit_app. rewrite <- app_assoc, IHf by lia. reflexivity.
  - intros c a v s N V n r D. pose proof (p_filter_item _ _ n r (i_cmp c a v s N V) D) as H. rewrite <- H. f_equal. now rewrite <- !app_assoc.
  - intros a N n r D. pose proof (p_filter_item _ _ n r (i_present a N) D) as H. rewrite <- H. f_equal. now rewrite <- !app_assoc.
  - intros a i vs f si ss sf N I St F L n r D. pose proof (p_filter_item _ _ n r (i_sub a i vs f si ss sf N I St F L) D) as H. rewrite <- H. f_equal.
    repeat (rewrite <- app_assoc || rewrite <- app_comm_cons). reflexivity.
  - intros ty rule d v s O N R V n r D. pose proof (p_filter_item _ _ n r (i_ext ty rule d v s O N R V) D) as H. rewrite <- H. f_equal. now rewrite <- !app_assoc.
  - intros n k r _ P K. destruct k as [|k]; [lia|]. destruct n as [|n]; [lia|]. reflexivity.
  - intros f s fs ss W IHf _ IHs n k r D P K. cbn [deepest] in D. destruct k as [|k]; [lia|]. rewrite <- app_assoc. cbn [p_many]. rewrite IHf by lia.
    pose proof (written_length f s W). rewrite app_length in K. rewrite IHs by lia. reflexivity.
Qed.

(** ** Tabs *)
Lemma expandtabs_id s : no_tab s -> expandtabs s = s.
Proof.
  unfold no_tab, expandtabs. generalize 0. induction s as [|c s IH]; intros col N; [reflexivity|]. cbn [expandtabs_go]. destruct (Z.eqb_spec c 9) as [->|]; [exfalso; apply N; now left|].
  assert (no_tab s) by (intros J; apply N; now right). destruct ((c =? 10) || (c =? 13)); now rewrite IH.
Qed.
Lemma parse_exact depth s f : no_tab s -> (parse_filter depth (PStr s) = Ok f <-> written f s /\ (nesting f <= depth)%nat).
Proof.
  intros N. unfold parse_filter. cbn [to_unicode bind]. rewrite (expandtabs_id s N). split.
  - destruct (p_filter depth s) as [g r| |] eqn:P; [|discriminate|discriminate]. destruct r; [|discriminate]. intros [= <-].
    destruct (p_filter_sound _ _ _ _ P) as (t & -> & W & D). rewrite app_nil_r. auto.
  - intros (W & D). pose proof (proj1 p_filter_complete f s W depth [] D) as H. rewrite app_nil_r in H. now rewrite H.
Qed.
(** A text that is not of the grammar is refused; nothing else happens but for the recursion limit. *)
Lemma parse_errors depth s x : no_tab s -> parse_filter depth (PStr s) = Err x -> x = EInvalidFilter \/ x = ERecursion.
Proof.
  intros N. unfold parse_filter. cbn [to_unicode bind]. destruct (p_filter depth (expandtabs s)) as [g [|c r]| |]; intros [= <-]; auto.
Qed.

(** ** Escaping *)
Lemma replace1_app c t a b : replace1 c t (a ++ b) = replace1 c t a ++ replace1 c t b.
Proof. apply flat_map_app. Qed.
Lemma escape_app a b : escape (a ++ b) = escape a ++ escape b.
Proof. unfold escape. now rewrite !replace1_app. Qed.
Lemma replace1_other c t x : x <> c -> replace1 c t [x] = [x].
Proof. intros N. unfold replace1. cbn. destruct (Z.eqb_spec x c); [congruence|reflexivity]. Qed.
Lemma escape_plain x : ~ In x [42; 40; 41; 92; 0] -> escape [x] = [x].
Proof.
  intros N. unfold escape. rewrite (replace1_other 92), (replace1_other 42), (replace1_other 40), (replace1_other 41), (replace1_other 0); [reflexivity| | | | |]; intros ->; apply N; cbn; tauto.
Qed.
Lemma spells_app v s w t : spells v s -> spells w t -> spells (v ++ w) (s ++ t).
Proof. induction 1; intros H'; cbn [app]; [exact H'|constructor; auto|now apply sp_hex; auto]. Qed.
Lemma escape1_spells x : spells [x] (escape [x]).
Proof.
  destruct (in_dec Z.eq_dec x [42; 40; 41; 92; 0]) as [J|N].
  - destruct J as [<-|[<-|[<-|[<-|[<-|[]]]]]].
    + apply (sp_hex 50 97 2 10); [reflexivity|reflexivity|constructor].
    + apply (sp_hex 50 56 2 8); [reflexivity|reflexivity|constructor].
    + apply (sp_hex 50 57 2 9); [reflexivity|reflexivity|constructor].
    + apply (sp_hex 53 99 5 12); [reflexivity|reflexivity|constructor].
    + apply (sp_hex 48 48 0 0); [reflexivity|reflexivity|constructor].
  - rewrite (escape_plain x N). apply sp_plain; [exact N|constructor].
Qed.
Lemma escape_spells s : spells s (escape s).
Proof. induction s as [|x s IH]; [constructor|]. change (x :: s) with ([x] ++ s). rewrite escape_app. apply spells_app; [apply escape1_spells|exact IH]. Qed.
Lemma spells_tab v s : spells v s -> no_tab v -> no_tab s.
Proof.
  unfold no_tab. induction 1 as [|c v s N H IH|h l x y v s Hh Hl H IH]; intros T; [auto| |].
  - intros [->|J]; [apply T; now left|]. apply IH; [intros K; apply T; now right|exact J].
  - intros [J|[->|[->|J]]]; [discriminate|discriminate|discriminate|]. apply IH; [intros K; apply T; now right|exact J].
Qed.
Lemma escape_id s : Forall (fun c => ~ In c [42; 40; 41; 92; 0]) s -> escape s = s.
Proof. induction 1 as [|x s N F IH]; [reflexivity|]. change (x :: s) with ([x] ++ s). now rewrite escape_app, (escape_plain x N), IH. Qed.

Lemma hexval_digit d : 0 <= d < 16 -> hexval (hex_digit d) = Some d.
Proof. intros H. unfold hex_digit, hexval. destruct (Z.ltb_spec d 10).
  - replace ((48 <=? 48 + d) && (48 + d <=? 57)) with true by lia. f_equal. lia.
  - replace ((48 <=? 87 + d) && (87 + d <=? 57)) with false by lia. replace ((65 <=? 87 + d) && (87 + d <=? 70)) with false by lia.
    replace ((97 <=? 87 + d) && (87 + d <=? 102)) with true by lia. f_equal. lia.
Qed.
Lemma hex02_byte c : 0 <= c < 256 -> exists h l x y, hex02 c = [h; l] /\ hexval h = Some x /\ hexval l = Some y /\ 16 * x + y = c.
Proof.
  intros H. unfold hex02. change 8%nat with (S (S 6)). cbn [hex_go]. destruct (Z.ltb_spec c 16).
  - exists 48, (hex_digit c), 0, c. split; [reflexivity|]. split; [reflexivity|]. split; [apply hexval_digit; lia|lia].
  - assert (c / 16 < 16) by (apply Z.div_lt_upper_bound; lia). replace (c / 16 <? 16) with true by lia.
    exists (hex_digit (c / 16)), (hex_digit (c mod 16)), (c / 16), (c mod 16). split; [reflexivity|].
    pose proof (Z.div_mod c 16). pose proof (Z.mod_pos_bound c 16). assert (0 <= c / 16) by (apply Z.div_pos; lia). split; [apply hexval_digit; lia|]. split; [apply hexval_digit; lia|lia].
Qed.
Lemma binary_spells s : Forall (fun c => 0 <= c < 256) s -> spells s (binary_escape s).
Proof.
  induction 1 as [|c s R F IH]; [constructor|]. unfold binary_escape in *. cbn [flat_map]. destruct (hex02_byte c R) as (h & l & x & y & -> & Hh & Hl & E).
  cbn [app]. rewrite <- E at 1. now apply sp_hex.
Qed.
