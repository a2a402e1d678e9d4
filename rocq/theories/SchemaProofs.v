(** Proofs about schema descriptions. *)
From Verif Require Import Base BaseFacts SchemaModel SchemaSpec.

Local Arguments space : simpl never.
Local Arguments b2z : simpl never.
Local Arguments B : simpl never.

(** ** White space and words *)
Lemma space_iff c : space c = true <-> is_space c.
Proof. unfold space, is_space. rewrite existsb_exists. split; [intros (x & I & E); apply Z.eqb_eq in E; now rewrite E|intros I; exists (b2z c); split; [exact I|apply Z.eqb_refl]]. Qed.
Lemma space_not c : space c = false <-> ~ is_space c.
Proof. rewrite <- space_iff. destruct (space c); split; congruence. Qed.
Lemma lstrip_gap g t : gap g -> lstrip (g ++ t) = lstrip t.
Proof. induction 1 as [|c g H _ IH]; [reflexivity|]. cbn [app lstrip]. apply space_iff in H. now rewrite H. Qed.
Lemma lstrip_all g : gap g -> lstrip g = []. Proof. intros H. rewrite <- (app_nil_r g). now rewrite lstrip_gap. Qed.
Definition starts (t : bytes) : Prop := t = [] \/ exists c r, t = c :: r /\ ~ is_space c.
Lemma lstrip_id t : starts t -> lstrip t = t.
Proof. intros [->|(c & r & -> & H)]; [reflexivity|]. cbn. apply space_not in H. now rewrite H. Qed.
Lemma lstrip_starts t : starts (lstrip t).
Proof. induction t as [|c t IH]; [now left|]. cbn. destruct (space c) eqn:E; [exact IH|]. right. exists c, t. split; [reflexivity|]. now apply space_not. Qed.
Lemma lstrip_idem t : lstrip (lstrip t) = lstrip t. Proof. apply lstrip_id, lstrip_starts. Qed.
Definition ends (t : bytes) : Prop := t = [] \/ exists c r, t = c :: r /\ is_space c.
Lemma word_of_app w r : Forall (fun b => ~ is_space b) w -> ends r -> word_of (w ++ r) = (w, r).
Proof.
  intros F E. induction F as [|c w H _ IH]; cbn [app word_of].
  - destruct E as [->|(c & r' & -> & H)]; [reflexivity|]. cbn. apply space_iff in H. now rewrite H.
  - apply space_not in H. now rewrite H, IH.
Qed.
Lemma word_starts w r : word w -> starts (w ++ r).
Proof. intros (N & F). destruct w as [|c w]; [congruence|]. right. exists c, (w ++ r). split; [reflexivity|]. now inversion F. Qed.
Lemma gap1_ends g r : gap1 g -> ends (g ++ r).
Proof. intros (F & N). destruct g as [|c g]; [congruence|]. right. exists c, (g ++ r). split; [reflexivity|]. now inversion F. Qed.
Definition first (r : bytes) : bytes := fst (word_of (lstrip r)).
Definition later (Q : bytes -> Prop) (r : bytes) : Prop := ends r /\ (lstrip r = [] \/ Q (first r)).
Lemma word_of_starts t : starts t -> t <> [] -> fst (word_of t) <> [].
Proof. intros [->|(c & r & -> & H)]; [congruence|]. intros _. cbn. apply space_not in H. rewrite H. destruct (word_of r). discriminate. Qed.
Lemma peek_first t : peekWord (lstrip t) = Ok (match lstrip t with [] => None | _ => Some (first t) end).
Proof.
  unfold peekWord. destruct (lstrip t) as [|c r] eqn:E; [reflexivity|]. rewrite <- E, lstrip_idem. unfold first. pose proof (word_of_starts (lstrip t) (lstrip_starts t)) as N. destruct (word_of (lstrip t)) as (w & s). cbn [fst] in *. destruct w; [destruct N; [rewrite E; discriminate|reflexivity]|reflexivity].
Qed.
Lemma bytes_eqb_iff a b : bytes_eqb a b = true <-> a = b. Proof. destruct (bytes_eqb_spec a b); split; congruence. Qed.
Lemma bytes_eqb_ne a b : a <> b -> bytes_eqb a b = false. Proof. destruct (bytes_eqb_spec a b); congruence. Qed.
Lemma bytes_eqb_same a : bytes_eqb a a = true. Proof. now apply bytes_eqb_iff. Qed.
Lemma peeks_no Q kw r : later Q r -> ~ Q kw -> peeks kw (lstrip r) = Ok false.
Proof. intros (_ & H) N. unfold peeks. rewrite peek_first. destruct (lstrip r); [reflexivity|]. cbn [bind]. rewrite bytes_eqb_ne; [reflexivity|]. destruct H as [H|H]; [discriminate|]. now intros <-. Qed.
Lemma first_word g kw t : gap g -> word kw -> ends t -> lstrip (g ++ kw ++ t) = kw ++ t /\ first (g ++ kw ++ t) = kw.
Proof. intros G W E. assert (L : lstrip (g ++ kw ++ t) = kw ++ t) by (rewrite lstrip_gap by exact G; now apply lstrip_id, word_starts). split; [exact L|]. unfold first. rewrite L, word_of_app; [reflexivity|apply W|exact E]. Qed.
Lemma peeks_yes kw t : word kw -> ends t -> peeks kw (kw ++ t) = Ok true.
Proof.
  intros W E. destruct (first_word [] kw t (Forall_nil _) W E) as (L & F). cbn [app] in L, F. unfold peeks. rewrite <- L, peek_first, L, F. destruct W as (N & _). destruct kw; [congruence|]. cbn [app bind]. now rewrite bytes_eqb_same.
Qed.
Lemma skip_kw kw g t : gap1 g -> starts t -> lstrip (skip kw (kw ++ g ++ t)) = t.
Proof.
  intros (G & N) St. unfold skip. destruct g as [|c g]; [congruence|].
  replace (kw ++ (c :: g) ++ t) with ((kw ++ [c]) ++ g ++ t) by (rewrite <- app_assoc; reflexivity). replace (S (length kw)) with (length (kw ++ [c])) by (rewrite app_length; cbn; lia). rewrite skipn_app, skipn_all, Nat.sub_diag. cbn [app skipn]. inversion G; subst. rewrite lstrip_gap by assumption. now apply lstrip_id.
Qed.
Lemma skip_kw_end kw t : ends t -> lstrip (skip kw (kw ++ t)) = lstrip t.
Proof.
  intros [->|(c & r & -> & H)]; unfold skip.
  - rewrite app_nil_r. rewrite skipn_all2 by lia. reflexivity.
  - replace (kw ++ c :: r) with ((kw ++ [c]) ++ r) by (rewrite <- app_assoc; reflexivity). replace (S (length kw)) with (length (kw ++ [c])) by (rewrite app_length; cbn; lia). rewrite skipn_app, skipn_all, Nat.sub_diag. cbn [app skipn lstrip]. apply space_iff in H. now rewrite H.
Qed.
Lemma extract_word w r : word w -> ends r -> extractWord (w ++ r) = Ok (w, lstrip r).
Proof.
  intros W E. destruct (first_word [] w r (Forall_nil _) W E) as (L & _). cbn [app] in L. unfold extractWord. destruct (w ++ r) as [|c x] eqn:Q; [destruct W as (N & _); destruct w; [congruence|discriminate]|]. rewrite L. rewrite <- Q, word_of_app by (try apply W; exact E). destruct W as (N & _). destruct w; [congruence|reflexivity].
Qed.

(** Fields that are still to come *)
Lemma later_weaken (Q Q' : bytes -> Prop) r : later Q r -> (forall k, Q k -> Q' k) -> later Q' r.
Proof. intros (E & [H|H]) I; split; auto. Qed.
Lemma later_gap g : gap g -> later (fun _ => False) g.
Proof. intros G. split; [|left; now apply lstrip_all]. destruct g as [|c g]; [now left|]. right. exists c, g. split; [reflexivity|]. now inversion G. Qed.
Lemma later_opt {A} kw (P : A -> bytes -> Prop) o t Q r : word kw -> opt_text kw P o t -> later Q r -> later (fun k => k = kw \/ Q k) (t ++ r).
Proof.
  intros W H L. destruct o as [v|]; cbn in H; [|subst t; cbn [app]; apply (later_weaken Q); auto]. destruct H as (g & g' & x & G & G' & _ & ->). rewrite <- !app_assoc. split; [now apply gap1_ends|]. right. left. apply (first_word g kw (g' ++ x ++ r)); [apply G|exact W|now apply gap1_ends].
Qed.
Lemma later_flag kw b t Q r : word kw -> flag_text kw b t -> later Q r -> later (fun k => k = kw \/ Q k) (t ++ r).
Proof.
  intros W H L. destruct b; cbn in H; [|subst t; cbn [app]; apply (later_weaken Q); auto]. destruct H as (g & G & ->). rewrite <- !app_assoc. split; [now apply gap1_ends|]. right. left. apply (first_word g kw r); [apply G|exact W|apply L].
Qed.

(** ** Values *)
Lemma cut_app c s r : no c s -> cut c (s ++ z2b c :: r) = if b2z (z2b c) =? c then Ok (s, r) else cut c (s ++ z2b c :: r).
Proof.
  intros H. destruct (b2z (z2b c) =? c) eqn:E; [|reflexivity]. induction H as [|b s Hb _ IH]; cbn [app cut]; [now rewrite E|]. destruct (Z.eqb_spec (b2z b) c); [congruence|]. now rewrite IH.
Qed.
Lemma cut_quote s r : no 39 s -> cut 39 (s ++ B "'" ++ r) = Ok (s, r). Proof. intros H. exact (cut_app 39 s r H). Qed.
Lemma cut_paren s r : no 41 s -> cut 41 (s ++ B ")" ++ r) = Ok (s, r). Proof. intros H. exact (cut_app 41 s r H). Qed.
Lemma no_app c a b : no c (a ++ b) <-> no c a /\ no c b. Proof. apply Forall_app. Qed.
Lemma gap_no c g : gap g -> ~ In c [32; 9; 10; 11; 12; 13] -> no c g.
Proof. intros G N. unfold gap in G. rewrite Forall_forall in G. apply Forall_forall. intros b I E. apply N. rewrite <- E. exact (G b I). Qed.
Lemma strs_seq_no l x : strs_seq l x -> no 41 x.
Proof. induction 1 as [|s l x g t (H1 & ->) H2 G _ IH]; [constructor|]. rewrite !no_app. split; [|split]; [|apply gap_no; [exact G|cbn; intuition congruence]|exact IH]. split; [repeat constructor; discriminate|]. split; [exact H2|repeat constructor; discriminate]. Qed.
Lemma strs_seq_starts l x r : strs_seq l x -> starts (x ++ B ")" ++ r).
Proof. intros H. destruct H as [|s l x g t (H1 & ->) H2 G H]; right; cbn; eexists; eexists; (split; [reflexivity|]); cbn; unfold is_space; vm_compute; intuition discriminate. Qed.
Lemma strings_seq l x : strs_seq l x -> forall k, (length x < k)%nat -> forall g, gap g -> (length g + length x < k)%nat -> strings_loop k (g ++ x) = Ok l.
Proof.
  induction 1 as [|s l x g t (H1 & ->) H2 G _ IH]; intros k Lk g0 G0 Lg; (destruct k as [|k]; [lia|]); cbn [strings_loop]; rewrite lstrip_gap by exact G0; [reflexivity|].
  change (lstrip ((B "'" ++ s ++ B "'") ++ g ++ t)) with (B "'" ++ (s ++ B "'") ++ g ++ t). cbn [app]. change (B "'") with ["'"%byte]. cbn [app]. change (is_at 39 ("'"%byte :: (s ++ ["'"%byte]) ++ g ++ t)) with true. cbn [negb tl]. rewrite <- app_assoc. change ["'"%byte] with (B "'"). rewrite cut_quote by exact H1. cbn [bind].
  rewrite !app_length in Lk, Lg. cbn [length B String.list_byte_of_string] in Lk, Lg. rewrite (IH k); [reflexivity| |exact G|]; change (length (B "'")) with 1%nat in *; lia.
Qed.
Lemma strings_list l x : strs_seq l x -> strings_to_list x = Ok l.
Proof. intros H. unfold strings_to_list. apply (strings_seq l x H (S (length x)) ltac:(lia) [] (Forall_nil _)). cbn; lia. Qed.
Lemma strs_starts l x r : strs_text l x -> starts (x ++ r).
Proof.
  intros [(s & -> & H & ->)|(g & x' & G & H & ->)]; right; cbn; eexists; eexists; (split; [reflexivity|]); unfold is_space; vm_compute; intuition discriminate.
Qed.
Lemma p_strings_paren g l x r : gap g -> strs_seq l x -> (do (s, r) <- cut 41 (lstrip (tl ((B "(" ++ g ++ x ++ B ")") ++ r))); do l <- strings_to_list s; Ok (l, r)) = Ok (l, r).
Proof.
  intros G H. rewrite <- !app_assoc. change (tl (B "(" ++ g ++ x ++ B ")" ++ r)) with (g ++ x ++ B ")" ++ r). rewrite lstrip_gap by exact G. rewrite lstrip_id by (now apply strs_seq_starts with (l := l)). rewrite cut_paren by (now apply strs_seq_no with (l := l)). cbn [bind]. now rewrite (strings_list l x H).
Qed.
Lemma p_strings_ok l x r : strs_text l x -> p_strings (x ++ r) = Ok (l, r).
Proof.
  intros [(s & -> & H & ->)|(g & x' & G & H & ->)].
  - rewrite <- !app_assoc. change (p_strings (B "'" ++ s ++ B "'" ++ r)) with (do (s0, r0) <- cut 39 (s ++ B "'" ++ r); Ok ([s0], r0)). now rewrite cut_quote.
  - exact (p_strings_paren g l x' r G H).
Qed.
Lemma oid_seq_no l x : oid_seq l x -> no 41 x.
Proof. induction 1 as [w g (_ & _ & H) G|w l g g' t (_ & _ & H) G G' _ IH]; rewrite !no_app; repeat split; try assumption; try (apply gap_no; [assumption|cbn; intuition congruence]). repeat constructor; discriminate. Qed.
Lemma oid_seq_starts l x r : oid_seq l x -> starts (x ++ r).
Proof. destruct 1 as [w g (W & _) G|w l g g' t (W & _) G G' H]; rewrite <- !app_assoc; now apply word_starts. Qed.
Lemma split_no c a : no c a -> split_on c a = [a].
Proof. induction 1 as [|b a H _ IH]; [reflexivity|]. cbn. destruct (Z.eqb_spec (b2z b) c); [congruence|]. now rewrite IH. Qed.
Lemma split_app a b : no 36 a -> split_on 36 (a ++ B "$" ++ b) = a :: split_on 36 b.
Proof. induction 1 as [|x a H _ IH]; [reflexivity|]. cbn [app split_on]. destruct (Z.eqb_spec (b2z x) 36); [congruence|]. now rewrite IH. Qed.
Lemma strip_word g w g' : gap g -> word w -> gap g' -> strip (g ++ w ++ g') = w.
Proof.
  intros G W G'. unfold strip. rewrite lstrip_gap by exact G. rewrite (lstrip_id (w ++ g')) by (now apply word_starts). rewrite rev_app_distr, lstrip_gap by (now apply Forall_rev). rewrite lstrip_id; [apply rev_involutive|]. destruct W as (N & F). rewrite <- (rev_involutive w) in F, N. destruct (rev w) as [|c v]; [now left|]. right. exists c, v. split; [reflexivity|].
  rewrite Forall_forall in F. apply F. apply in_rev. rewrite rev_involutive. now left.
Qed.
Lemma to_list_ok l x : oid_seq l x -> forall g, gap g -> to_list (g ++ x) = Ok l.
Proof.
  unfold to_list. induction 1 as [w g (W & D & _) G|w l g g' t (W & D & _) G G' _ IH]; intros g0 G0.
  - rewrite split_no by (rewrite !no_app; repeat split; try assumption; (apply gap_no; [assumption|cbn; intuition congruence])). cbn [strip_all]. rewrite strip_word by assumption. destruct W as (N & _). destruct w; [congruence|reflexivity].
  - replace (g0 ++ w ++ g ++ B "$" ++ g' ++ t) with ((g0 ++ w ++ g) ++ B "$" ++ g' ++ t) by (now rewrite <- !app_assoc). rewrite split_app by (rewrite !no_app; repeat split; try assumption; (apply gap_no; [assumption|cbn; intuition congruence])). cbn [strip_all]. rewrite strip_word by assumption. rewrite (IH g' G'). destruct W as (N & _). destruct w; [congruence|reflexivity].
Qed.
Lemma oids_starts v x r : oids_text v x -> starts (x ++ r).
Proof. destruct v as ([|] & l); cbn; [intros (g & y & _ & _ & ->); right; cbn; eexists; eexists; (split; [reflexivity|]); unfold is_space; vm_compute; intuition discriminate|]. intros (w & _ & (W & _) & ->). now apply word_starts. Qed.

(** ** Fields *)
Section Field.
  Variable Q : bytes -> Prop.
  Variable r : bytes.
  Hypothesis L : later Q r.
  Lemma field_kw {A} kw (P : A -> bytes -> Prop) v t : word kw -> opt_text kw P (Some v) t -> (forall x, P v x -> starts (x ++ r)) ->
    exists x, P v x /\ peeks kw (lstrip (t ++ r)) = Ok true /\ lstrip (skip kw (lstrip (t ++ r))) = x ++ r.
  Proof.
    intros W (g & g' & x & G & G' & Px & ->) St. exists x. split; [exact Px|]. rewrite <- !app_assoc. destruct (first_word g kw (g' ++ x ++ r) (proj1 G) W (gap1_ends g' _ G')) as (E & _). rewrite E. split; [apply peeks_yes; [exact W|now apply gap1_ends]|]. apply skip_kw; [exact G'|]. now apply St.
  Qed.
  Lemma p_name_ok o t : opt_text (B "NAME") strs_text o t -> ~ Q (B "NAME") -> p_name (lstrip (t ++ r)) = Ok (o, lstrip r).
  Proof.
    intros H N. unfold p_name. destruct o as [l|].
    - destruct (field_kw (B "NAME") strs_text l t ltac:(split; [discriminate|repeat constructor; vm_compute; intuition discriminate]) H) as (x & Px & E1 & E2); [intros; now apply strs_starts with (l := l)|]. rewrite E1, E2. cbn [bind]. now rewrite (p_strings_ok l x r Px).
    - cbn in H. subst t. cbn [app]. rewrite (peeks_no Q) by assumption. cbn [bind]. now rewrite lstrip_idem.
  Qed.
  Lemma p_desc_ok o t : opt_text (B "DESC") str_text o t -> ~ Q (B "DESC") -> p_desc (lstrip (t ++ r)) = Ok (o, lstrip r).
  Proof.
    intros H N. unfold p_desc. destruct o as [s|].
    - destruct (field_kw (B "DESC") str_text s t ltac:(split; [discriminate|repeat constructor; vm_compute; intuition discriminate]) H) as (x & (Hs & ->) & E1 & E2); [intros x Px; apply (strs_starts [s]); left; now exists s|]. rewrite E1, E2. cbn [bind]. rewrite <- !app_assoc. change (is_at 39 (B "'" ++ s ++ B "'" ++ r)) with true. change (tl (B "'" ++ s ++ B "'" ++ r)) with (s ++ B "'" ++ r). cbn [negb]. now rewrite cut_quote.
    - cbn in H. subst t. cbn [app]. rewrite (peeks_no Q) by assumption. cbn [bind]. now rewrite lstrip_idem.
  Qed.
  Lemma p_flag_ok kw b t : word kw -> flag_text kw b t -> ~ Q kw -> p_flag kw (lstrip (t ++ r)) = Ok (b, lstrip r).
  Proof.
    intros W H N. unfold p_flag. destruct b; cbn in H.
    - destruct H as (g & G & ->). rewrite <- app_assoc. destruct (first_word g kw r (proj1 G) W (proj1 L)) as (E & _). rewrite E, peeks_yes by (try exact W; apply L). cbn [bind]. now rewrite skip_kw_end by apply L.
    - subst t. cbn [app]. rewrite (peeks_no Q) by assumption. cbn [bind]. now rewrite lstrip_idem.
  Qed.
  Lemma p_word_ok kw o t : word kw -> opt_text kw word_text o t -> ~ Q kw -> p_word kw (lstrip (t ++ r)) = Ok (o, lstrip r).
  Proof.
    intros W H N. unfold p_word. destruct o as [w|].
    - destruct (field_kw kw word_text w t W H) as (x & (Hw & ->) & E1 & E2); [intros x (Wx & ->); now apply word_starts|]. rewrite E1, E2. cbn [bind]. rewrite extract_word by (try assumption; apply L). cbn [bind]. now rewrite lstrip_idem.
    - cbn in H. subst t. cbn [app]. rewrite (peeks_no Q) by assumption. cbn [bind]. now rewrite lstrip_idem.
  Qed.
  Lemma p_oids_ok kw o t : word kw -> opt_text kw oids_text o t -> ~ Q kw -> p_oids kw (lstrip (t ++ r)) = Ok (o, lstrip r).
  Proof.
    intros W H N. unfold p_oids. destruct o as [v|].
    - destruct (field_kw kw oids_text v t W H) as (x & Hv & E1 & E2); [intros x; apply oids_starts|]. rewrite E1, E2. cbn [bind]. destruct v as ([|] & l); cbn in Hv.
      + destruct Hv as (g & y & G & Hy & ->). rewrite <- !app_assoc. change (is_at 40 (B "(" ++ g ++ y ++ B ")" ++ r)) with true. cbv iota. change (tl (B "(" ++ g ++ y ++ B ")" ++ r)) with (g ++ y ++ B ")" ++ r). rewrite lstrip_gap by exact G. rewrite lstrip_id by (now apply oid_seq_starts with (l := l)). rewrite cut_paren by (now apply oid_seq_no with (l := l)). cbn [bind]. pose proof (to_list_ok l y Hy [] (Forall_nil _)) as T. cbn [app] in T. now rewrite T.
      + destruct Hv as (w & -> & (Ww & Hw) & ->). assert (A : is_at 40 (w ++ r) = false). { destruct w as [|c w]; [destruct Ww as (X & _); congruence|]. cbn. apply Z.eqb_neq. now apply (Hw c w). } rewrite A, extract_word by (try assumption; apply L). cbn [bind]. now rewrite lstrip_idem.
    - cbn in H. subst t. cbn [app]. rewrite (peeks_no Q) by assumption. cbn [bind]. now rewrite lstrip_idem.
  Qed.
End Field.

(** ** The whole of a description *)
Lemma kw_word k : (negb (bytes_eqb k []) && forallb (fun b => negb (space b)) k) = true -> word k.
Proof. intros H. apply andb_prop in H as (H1 & H2). split; [intros ->; discriminate|]. rewrite forallb_forall in H2. apply Forall_forall. intros b I. apply space_not. specialize (H2 b I). now destruct (space b). Qed.
Ltac kw := match goal with |- word ?k => let v := eval vm_compute in (negb (bytes_eqb k []) && forallb (fun b => negb (space b)) k) in match v with true => exact (kw_word k eq_refl) end end.
Lemma numeric_word w : numeric w -> word w.
Proof. intros (N & F). split; [exact N|]. eapply Forall_impl; [|exact F]. cbv beta. intros b H I. unfold is_space in I. cbn in I. lia. Qed.
Lemma oid_check_iff w : oid_check w = true <-> numeric w.
Proof.
  assert (C : forall b, oid_char b = true <-> (48 <= b2z b <= 57 \/ b2z b = 46)).
  { intros b. unfold oid_char. rewrite existsb_exists. split.
    - intros (x & I & E). apply beqb_eq in E. subst x. revert b I. apply Forall_forall. repeat (constructor; [vm_compute; intuition discriminate|]). constructor.
    - intros H. exists b. split; [|apply beqb_refl]. destruct b; first [vm_compute; tauto|exfalso; vm_compute in H; intuition (try discriminate; auto)]. }
  unfold oid_check, numeric. rewrite andb_true_iff, negb_true_iff, forallb_forall, Forall_forall. split; intros (A1 & A2); (split; [|intros b I; apply C, (A2 b I)]).
  - intros ->. discriminate.
  - now apply bytes_eqb_ne.
Qed.
Lemma name_check_iff n : name_check n = true <-> n <> Some [].
Proof. destruct n as [[|]|]; cbn; split; congruence. Qed.
Lemma p_open_ok g oid r : gap g -> word oid -> ends r -> p_open (B "(" ++ g ++ oid ++ r ++ B ")") = Ok (oid, lstrip r).
Proof.
  intros G W E. unfold p_open. change (is_at 40 (B "(" ++ g ++ oid ++ r ++ B ")")) with true. cbn [negb].
  assert (A : is_at 41 (rev (B "(" ++ g ++ oid ++ r ++ B ")")) = true). { rewrite !rev_app_distr. reflexivity. }
  rewrite A. cbn [negb]. change (tl (B "(" ++ g ++ oid ++ r ++ B ")")) with (g ++ oid ++ r ++ B ")"). replace (removelast (g ++ oid ++ r ++ B ")")) with (g ++ oid ++ r).
  - destruct (first_word g oid r G W E) as (F & _). rewrite F, extract_word by assumption. cbn [bind]. now rewrite lstrip_idem.
  - rewrite !app_assoc. change (B ")") with [")"%byte]. now rewrite removelast_last.
Qed.

Lemma p_type_ok Q k t r : later Q r -> kind_text k t -> (forall x, In x kinds -> ~ Q x) ->
  exists o, p_type (lstrip (t ++ r)) = Ok (o, lstrip r) /\ match o with Some x => x | None => B "STRUCTURAL" end = k.
Proof.
  intros L K N.
  assert (Z : exists a b c ta tb tc, t = ta ++ tb ++ tc /\ flag_text (B "ABSTRACT") a ta /\ flag_text (B "STRUCTURAL") b tb /\ flag_text (B "AUXILIARY") c tc /\
     (a && b = false) /\ ((a || b) && c = false) /\ (if a then B "ABSTRACT" else if b then B "STRUCTURAL" else if c then B "AUXILIARY" else B "STRUCTURAL") = k).
  { destruct K as [(I & g & G & ->)|(-> & ->)].
    - destruct I as [<-|[<-|[<-|[]]]].
      + exists true, false, false, (g ++ B "ABSTRACT"), [], []. repeat split; [now rewrite app_nil_r|now exists g].
      + exists false, true, false, [], (g ++ B "STRUCTURAL"), []. repeat split; [now rewrite app_nil_r|now exists g].
      + exists false, false, true, [], [], (g ++ B "AUXILIARY"). repeat split. now exists g.
    - exists false, false, false, [], [], []. repeat split. }
  destruct Z as (a & b & c & ta & tb & tc & -> & Fa & Fb & Fc & X1 & X2 & X3).
  assert (Lc : later (fun k => k = B "AUXILIARY" \/ Q k) (tc ++ r)) by (apply (later_flag _ c); [kw|exact Fc|exact L]).
  assert (Lb : later (fun k => k = B "STRUCTURAL" \/ k = B "AUXILIARY" \/ Q k) (tb ++ tc ++ r)) by (apply (later_flag _ b); [kw|exact Fb|exact Lc]).
  unfold p_type. rewrite <- !app_assoc.
  rewrite (p_flag_ok _ _ Lb (B "ABSTRACT") a ta); [|kw|exact Fa|intros [X|[X|X]]; [discriminate X|discriminate X|revert X; apply N; cbn; auto]]. cbn [bind].
  rewrite (p_flag_ok _ _ Lc (B "STRUCTURAL") b tb); [|kw|exact Fb|intros [X|X]; [discriminate X|revert X; apply N; cbn; auto]]. cbn [bind]. rewrite X1.
  rewrite (p_flag_ok _ _ L (B "AUXILIARY") c tc); [|kw|exact Fc|intros X; revert X; apply N; cbn; auto]. cbn [bind]. rewrite X2. eexists. split; [reflexivity|]. rewrite <- X3. destruct a, b, c; try discriminate; reflexivity.
Qed.
Lemma later_kind Q k t r : later Q r -> kind_text k t -> later (fun x => In x kinds \/ Q x) (t ++ r).
Proof.
  intros L [(I & g & G & ->)|(-> & ->)]; [|apply (later_weaken Q); [exact L|auto]]. rewrite <- app_assoc. split; [now apply gap1_ends|]. right. left.
  assert (W : word k) by (destruct I as [<-|[<-|[<-|[]]]]; kw). destruct (first_word g k r (proj1 G) W (proj1 L)) as (_ & F). now rewrite F.
Qed.
Lemma oids_of_opt kw l t : oids_of kw l t -> exists o, opt_text kw oids_text o t /\ oid_list o = l.
Proof. destruct l as [|x l]; cbn; [intros ->; now exists None|]. intros (b & H). exists (Some (b, x :: l)). now split. Qed.
Ltac nq := repeat match goal with |- ~ _ => intros ? | H : _ \/ _ |- _ => destruct H | H : In _ kinds |- _ => cbn in H | H : False |- _ => destruct H | H : B _ = B _ |- _ => discriminate H | H : firstn _ _ = B _ |- _ => discriminate H end.
Ltac side := first [assumption|kw|solve [nq]].
Theorem parse_ocd_text d t : ocd_text d t -> parse_ocd t = Ok d.
Proof.
  intros (g & t1 & t2 & t3 & t4 & t5 & t6 & t7 & g' & G & G' & Hoid & Hn & -> & H1 & H2 & H3 & H4 & H5 & H6 & H7).
  destruct (oids_of_opt _ _ _ H6) as (o6 & K6 & V6). destruct (oids_of_opt _ _ _ H7) as (o7 & K7 & V7).
  pose proof (later_gap g' G') as L8.
  pose proof (later_opt (B "MAY") oids_text o7 t7 _ _ ltac:(kw) K7 L8) as L7.
  pose proof (later_opt (B "MUST") oids_text o6 t6 _ _ ltac:(kw) K6 L7) as L6.
  pose proof (later_kind _ _ _ _ L6 H5) as L5.
  pose proof (later_opt (B "SUP") oids_text _ t4 _ _ ltac:(kw) H4 L5) as L4.
  pose proof (later_flag (B "OBSOLETE") _ t3 _ _ ltac:(kw) H3 L4) as L3.
  pose proof (later_opt (B "DESC") str_text _ t2 _ _ ltac:(kw) H2 L3) as L2.
  pose proof (later_opt (B "NAME") strs_text _ t1 _ _ ltac:(kw) H1 L2) as L1.
  unfold parse_ocd. replace (t1 ++ t2 ++ t3 ++ t4 ++ t5 ++ t6 ++ t7 ++ g' ++ B ")") with ((t1 ++ t2 ++ t3 ++ t4 ++ t5 ++ t6 ++ t7 ++ g') ++ B ")") by (now rewrite <- !app_assoc).
  rewrite p_open_ok; [|exact G|now apply numeric_word|apply L1]. cbn [bind].
  rewrite (p_name_ok _ _ L2 _ _ H1) by side. cbn [bind].
  rewrite (p_desc_ok _ _ L3 _ _ H2) by side. cbn [bind].
  rewrite (p_flag_ok _ _ L4 (B "OBSOLETE") (o_obsolete d) t3) by side. cbn [bind].
  rewrite (p_oids_ok _ _ L5 (B "SUP") (sup_of (o_sup d)) t4) by side. cbn [bind].
  destruct (p_type_ok _ _ _ _ L6 H5) as (ok & E5 & V5); [intros x I; cbn in I; intuition (subst; try discriminate)|]. rewrite E5. cbn [bind].
  rewrite (p_oids_ok _ _ L7 (B "MUST") o6 t6) by side. cbn [bind].
  rewrite (p_oids_ok _ _ L8 (B "MAY") o7 t7) by side. cbn [bind].
  rewrite lstrip_all by exact G'. cbn [bytes_eqb negb]. rewrite (proj2 (oid_check_iff _) Hoid). rewrite (proj2 (name_check_iff _) Hn).
  cbn [andb negb]. rewrite V5, V6, V7. destruct d as [a1 a2 a3 a4 a5 a6 a7 a8]. cbn. do 2 f_equal. destruct a5 as [[|]|]; reflexivity.
Qed.

(** *** Attribute types *)
Lemma p_xval_ok v x r : xval_text v x -> p_xval (x ++ r) = Ok (v, r).
Proof.
  destruct v as [s|l]; cbn.
  - intros (H & ->). rewrite <- !app_assoc. change (p_xval (B "'" ++ s ++ B "'" ++ r)) with (do (s0, r0) <- cut 39 (s ++ B "'" ++ r); Ok (XStr s0, r0)). now rewrite cut_quote.
  - intros (g & y & G & H & ->). unfold p_xval. change (is_at 39 ((B "(" ++ g ++ y ++ B ")") ++ r)) with false. change (is_at 40 ((B "(" ++ g ++ y ++ B ")") ++ r)) with true. cbv iota. rewrite <- !app_assoc. change (tl (B "(" ++ g ++ y ++ B ")" ++ r)) with (g ++ y ++ B ")" ++ r). rewrite lstrip_gap by exact G. rewrite lstrip_id by (now apply strs_seq_starts with (l := l)). rewrite cut_paren by (now apply strs_seq_no with (l := l)). cbn [bind]. now rewrite (strings_list l y H).
Qed.
Lemma xval_starts v x r : xval_text v x -> starts (x ++ r).
Proof. destruct v as [s|l]; cbn; intros H; [apply (strs_starts [s]); left; now exists s|apply (strs_starts l); now right]. Qed.
Lemma later_x l t g : x_text l t -> gap g -> later (fun k => firstn 2 k = B "X-") (t ++ g).
Proof.
  intros H G. destruct H as [|n v l t t' W F (g0 & g1 & x & G0 & G1 & Hx & ->) H]; [apply (later_weaken _ _ _ (later_gap g G)); tauto|].
  rewrite <- !app_assoc. split; [now apply gap1_ends|]. right. destruct (first_word g0 n (g1 ++ x ++ t' ++ g) (proj1 G0) W (gap1_ends _ _ G1)) as (_ & E). now rewrite E.
Qed.
Lemma p_x_ok l t g : x_text l t -> gap g -> forall k, (length l < k)%nat -> p_x k (t ++ g) = Ok l.
Proof.
  intros H G. induction H as [|n v l t t' W F (g0 & g1 & x & G0 & G1 & Hx & ->) H IH]; intros k Lk; (destruct k as [|k]; [lia|]); cbn [p_x].
  - cbn [app]. rewrite lstrip_all by exact G. reflexivity.
  - rewrite <- !app_assoc. destruct (first_word g0 n (g1 ++ x ++ t' ++ g) (proj1 G0) W (gap1_ends _ _ G1)) as (E1 & E2).
    rewrite peek_first, E2, E1. destruct (n ++ g1 ++ x ++ t' ++ g) as [|c y] eqn:Q; [destruct W as (N & _); destruct n; [congruence|discriminate]|]. cbn [bind]. rewrite <- Q, F, bytes_eqb_same. rewrite skip_kw by (try exact G1; now apply xval_starts with (v := v)). rewrite (p_xval_ok v) by exact Hx. cbn [bind]. rewrite IH; [reflexivity|].
    cbn in Lk. lia.
Qed.
Lemma p_x_strip k t : p_x k (lstrip t) = p_x k t.
Proof. destruct k; [reflexivity|]. cbn. now rewrite lstrip_idem. Qed.
Lemma lstrip_len t : (length (lstrip t) <= length t)%nat.
Proof. induction t as [|c t IH]; cbn; [lia|]. destruct (space c); cbn; lia. Qed.
Lemma usage_check_iff o : usage_check o = true <-> (forall u, o = Some u -> In u usages).
Proof.
  destruct o as [u|]; cbn [usage_check]; [|split; [discriminate|reflexivity]]. rewrite existsb_exists. split.
  - intros (x & I & E) v [= <-]. apply bytes_eqb_iff in E. now subst.
  - intros H. exists u. split; [now apply H|apply bytes_eqb_same].
Qed.
Lemma x_count l t g : x_text l t -> gap g -> (length l <= length (lstrip (t ++ g)))%nat.
Proof.
  intros H G. induction H as [|n v l t t' W F (g0 & g1 & x & G0 & G1 & Hx & ->) H IH]; [cbn; lia|]. rewrite <- !app_assoc. destruct (first_word g0 n (g1 ++ x ++ t' ++ g) (proj1 G0) W (gap1_ends _ _ G1)) as (E1 & _). rewrite E1. pose proof (lstrip_len (t' ++ g)). destruct W as (N & _). destruct n; [congruence|]. cbn [length app]. rewrite !app_length in *. lia.
Qed.
Lemma p_x_more l t g : x_text l t -> gap g -> p_x (S (length (lstrip (t ++ g)))) (lstrip (t ++ g)) = Ok l.
Proof. intros H G. rewrite p_x_strip. apply p_x_ok; [exact H|exact G|]. pose proof (x_count l t g H G). lia. Qed.
Theorem parse_atd_text d t : atd_text d t -> parse_atd t = Ok d.
Proof.
  intros (g & t1 & t2 & t3 & t4 & t5 & t6 & t7 & t8 & t9 & t10 & t11 & t12 & t13 & g' & G & G' & Hoid & Hn & Hu & -> & H1 & H2 & H3 & H4 & H5 & H6 & H7 & H8 & H9 & H10 & H11 & H12 & H13).
  pose proof (later_x _ _ g' H13 G') as L13.
  pose proof (later_opt (B "USAGE") word_text _ t12 _ _ ltac:(kw) H12 L13) as L12.
  pose proof (later_flag (B "NO-USER-MODIFICATION") _ t11 _ _ ltac:(kw) H11 L12) as L11.
  pose proof (later_flag (B "COLLECTIVE") _ t10 _ _ ltac:(kw) H10 L11) as L10.
  pose proof (later_flag (B "SINGLE-VALUE") _ t9 _ _ ltac:(kw) H9 L10) as L9.
  pose proof (later_opt (B "SYNTAX") word_text _ t8 _ _ ltac:(kw) H8 L9) as L8.
  pose proof (later_opt (B "SUBSTR") word_text _ t7 _ _ ltac:(kw) H7 L8) as L7.
  pose proof (later_opt (B "ORDERING") word_text _ t6 _ _ ltac:(kw) H6 L7) as L6.
  pose proof (later_opt (B "EQUALITY") word_text _ t5 _ _ ltac:(kw) H5 L6) as L5.
  pose proof (later_opt (B "SUP") word_text _ t4 _ _ ltac:(kw) H4 L5) as L4.
  pose proof (later_flag (B "OBSOLETE") _ t3 _ _ ltac:(kw) H3 L4) as L3.
  pose proof (later_opt (B "DESC") str_text _ t2 _ _ ltac:(kw) H2 L3) as L2.
  pose proof (later_opt (B "NAME") strs_text _ t1 _ _ ltac:(kw) H1 L2) as L1.
  unfold parse_atd. replace (t1 ++ t2 ++ t3 ++ t4 ++ t5 ++ t6 ++ t7 ++ t8 ++ t9 ++ t10 ++ t11 ++ t12 ++ t13 ++ g' ++ B ")") with ((t1 ++ t2 ++ t3 ++ t4 ++ t5 ++ t6 ++ t7 ++ t8 ++ t9 ++ t10 ++ t11 ++ t12 ++ t13 ++ g') ++ B ")") by (now rewrite <- !app_assoc).
  rewrite p_open_ok; [|exact G|now apply numeric_word|apply L1]. cbn [bind].
  rewrite (p_name_ok _ _ L2 _ _ H1) by side. cbn [bind].
  rewrite (p_desc_ok _ _ L3 _ _ H2) by side. cbn [bind].
  rewrite (p_flag_ok _ _ L4 (B "OBSOLETE") (a_obsolete d) t3) by side. cbn [bind].
  rewrite (p_word_ok _ _ L5 (B "SUP") (a_sup d) t4) by side. cbn [bind].
  rewrite (p_word_ok _ _ L6 (B "EQUALITY") (a_equality d) t5) by side. cbn [bind].
  rewrite (p_word_ok _ _ L7 (B "ORDERING") (a_ordering d) t6) by side. cbn [bind].
  rewrite (p_word_ok _ _ L8 (B "SUBSTR") (a_substr d) t7) by side. cbn [bind].
  rewrite (p_word_ok _ _ L9 (B "SYNTAX") (a_syntax d) t8) by side. cbn [bind].
  rewrite (p_flag_ok _ _ L10 (B "SINGLE-VALUE") (a_single d) t9) by side. cbn [bind].
  rewrite (p_flag_ok _ _ L11 (B "COLLECTIVE") (a_collective d) t10) by side. cbn [bind].
  rewrite (p_flag_ok _ _ L12 (B "NO-USER-MODIFICATION") (a_nomod d) t11) by side. cbn [bind].
  rewrite (p_word_ok _ _ L13 (B "USAGE") (a_usage d) t12) by side. cbn [bind].
  rewrite p_x_more with (l := a_x d) by assumption. cbn [bind].
  rewrite (proj2 (oid_check_iff _) Hoid). rewrite (proj2 (name_check_iff _) Hn). rewrite (proj2 (usage_check_iff _) Hu). now destruct d.
Qed.

(** *** Syntaxes and matching rules *)
Lemma later_true kw b t Q r : word kw -> true_text kw b t -> later Q r -> later (fun k => k = kw \/ Q k) (t ++ r).
Proof.
  intros W H L. destruct b; cbn in H; [|subst t; cbn [app]; apply (later_weaken Q); auto]. destruct H as (g & G & ->). rewrite <- !app_assoc. split; [now apply gap1_ends|]. right. left. apply (first_word g kw (B " 'TRUE'" ++ r)); [apply G|exact W|]. right. exists " "%byte, (B "'TRUE'" ++ r). split; [reflexivity|]. vm_compute. now left.
Qed.
Lemma p_true_ok Q r kw b t : later Q r -> word kw -> true_text kw b t -> ~ Q kw -> p_true kw (lstrip (t ++ r)) = Ok (b, lstrip r).
Proof.
  intros L W H N. unfold p_true. destruct b; cbn in H.
  - destruct H as (g & G & ->). rewrite <- !app_assoc.
    assert (E0 : ends (B " 'TRUE'" ++ r)) by (right; exists " "%byte, (B "'TRUE'" ++ r); split; [reflexivity|vm_compute; now left]).
    destruct (first_word g kw _ (proj1 G) W E0) as (E & _). rewrite E, peeks_yes by assumption. cbn [bind]. rewrite app_assoc. pose proof (skip_kw_end (kw ++ B " 'TRUE'") r (proj1 L)) as K. unfold skip in K. rewrite app_length in K. change (length (B " 'TRUE'")) with 7%nat in K. replace (length kw + 8)%nat with (S (length kw + 7)) by lia. now rewrite K.
  - subst t. cbn [app]. rewrite (peeks_no Q) by assumption. cbn [bind]. now rewrite lstrip_idem.
Qed.
Theorem parse_syd_text d t : syd_text d t -> parse_syd t = Ok d.
Proof.
  intros (g & t1 & t2 & t3 & g' & G & G' & Hoid & -> & H1 & H2 & H3).
  pose proof (later_gap g' G') as L4.
  pose proof (later_true (B "X-NOT-HUMAN-READABLE") _ t3 _ _ ltac:(kw) H3 L4) as L3.
  pose proof (later_true (B "X-BINARY-TRANSFER-REQUIRED") _ t2 _ _ ltac:(kw) H2 L3) as L2.
  pose proof (later_opt (B "DESC") str_text _ t1 _ _ ltac:(kw) H1 L2) as L1.
  unfold parse_syd. replace (t1 ++ t2 ++ t3 ++ g' ++ B ")") with ((t1 ++ t2 ++ t3 ++ g') ++ B ")") by (now rewrite <- !app_assoc).
  rewrite p_open_ok; [|exact G|now apply numeric_word|apply L1]. cbn [bind].
  rewrite (p_desc_ok _ _ L2 _ _ H1) by side. cbn [bind].
  rewrite (p_true_ok _ _ (B "X-BINARY-TRANSFER-REQUIRED") (y_binary d) t2 L3) by side. cbn [bind].
  rewrite (p_true_ok _ _ (B "X-NOT-HUMAN-READABLE") (negb (y_human d)) t3 L4) by side. cbn [bind].
  rewrite lstrip_all by exact G'. cbn [bytes_eqb negb]. rewrite (proj2 (oid_check_iff _) Hoid). cbn. rewrite negb_involutive. now destruct d.
Qed.
Theorem parse_mrd_text d t : mrd_text d t -> parse_mrd t = Ok d.
Proof.
  intros (g & t1 & t2 & t3 & t4 & g' & G & G' & Hoid & -> & H1 & H2 & H3 & H4).
  pose proof (later_gap g' G') as L5.
  pose proof (later_opt (B "SYNTAX") word_text _ t4 _ _ ltac:(kw) H4 L5) as L4.
  pose proof (later_flag (B "OBSOLETE") _ t3 _ _ ltac:(kw) H3 L4) as L3.
  pose proof (later_opt (B "DESC") str_text _ t2 _ _ ltac:(kw) H2 L3) as L2.
  pose proof (later_opt (B "NAME") strs_text _ t1 _ _ ltac:(kw) H1 L2) as L1.
  unfold parse_mrd. replace (t1 ++ t2 ++ t3 ++ t4 ++ g' ++ B ")") with ((t1 ++ t2 ++ t3 ++ t4 ++ g') ++ B ")") by (now rewrite <- !app_assoc).
  rewrite p_open_ok; [|exact G|now apply numeric_word|apply L1]. cbn [bind].
  rewrite (p_name_ok _ _ L2 _ _ H1) by side. cbn [bind].
  rewrite (p_desc_ok _ _ L3 _ _ H2) by side. cbn [bind].
  rewrite (p_flag_ok _ _ L4 (B "OBSOLETE") (m_obsolete d) t3) by side. cbn [bind].
  rewrite (p_word_ok _ _ L5 (B "SYNTAX") (Some (m_syntax d)) t4) by side. cbn [bind].
  rewrite lstrip_all by exact G'. cbn [bytes_eqb negb]. rewrite (proj2 (oid_check_iff _) Hoid). destruct H4 as (? & ? & x & _ & _ & ((N & _) & _) & _). destruct d as [a b c e s]. cbn in *. destruct s; [congruence|reflexivity].
Qed.

(** ** What the printers write *)
Inductive glued : list bytes -> bytes -> Prop :=
| GlueNil : glued [] []
| GlueCons g x l t : gap1 g -> glued l t -> glued (x :: l) (g ++ x ++ t).
Lemma glued_join sep l : gap1 sep -> forall g, gap1 g -> l <> [] -> glued l (g ++ join sep l).
Proof.
  intros S. induction l as [|x l IH]; [congruence|]. intros g G _. destruct l as [|y l].
  - cbn [join]. rewrite <- (app_nil_r x) at 2. constructor; [exact G|constructor].
  - change (join sep (x :: y :: l)) with (x ++ sep ++ join sep (y :: l)). constructor; [exact G|]. apply IH; [exact S|discriminate].
Qed.
Lemma sp1 : gap1 (B " "). Proof. split; [repeat constructor|discriminate]. Qed.
Lemma nl1 : gap1 NLSEP. Proof. split; [|discriminate]. apply Forall_forall. intros b I. apply space_iff. revert b I. apply forallb_forall. reflexivity. Qed.
Lemma glued_body l : exists t g, glued l t /\ gap g /\ B " " ++ join NLSEP l ++ B " " = t ++ g.
Proof.
  destruct l as [|x l].
  - exists [], (B "  "). split; [constructor|]. split; [repeat constructor|reflexivity].
  - exists (B " " ++ join NLSEP (x :: l)), (B " "). split; [apply glued_join; [apply nl1|apply sp1|discriminate]|]. split; [apply sp1|now rewrite <- app_assoc].
Qed.
Lemma glued_cons x l : exists t, glued l t /\ join (B " ") (x :: l) = x ++ t.
Proof. destruct l as [|y l]; [exists []; split; [constructor|cbn; now rewrite app_nil_r]|]. exists (B " " ++ join (B " ") (y :: l)). split; [apply glued_join; [apply sp1|apply sp1|discriminate]|reflexivity]. Qed.
Lemma glued_app a b t : glued (a ++ b) t -> exists ta tb, t = ta ++ tb /\ glued a ta /\ glued b tb.
Proof.
  revert t. induction a as [|x a IH]; intros t H; [exists [], t; repeat split; [constructor|exact H]|]. inversion H as [|g x' l t' G H' E1 E2]. subst. destruct (IH t' H') as (ta & tb & -> & A1 & A2). exists (g ++ x ++ ta), tb. rewrite <- !app_assoc. repeat split; [now constructor|exact A2].
Qed.
Lemma glued_one x t : glued [x] t -> exists g, gap1 g /\ t = g ++ x.
Proof. intros H. inversion H as [|g x' l t' G H' E1 E2]. inversion H'. subst. exists g. split; [exact G|now rewrite app_nil_r]. Qed.
Lemma glued_opt {A} kw (P : A -> bytes -> Prop) (o : option A) f t : glued (optl o f) t ->
  (forall v, o = Some v -> exists x, f v = kw ++ B " " ++ x /\ P v x) -> opt_text kw P o t.
Proof.
  destruct o as [v|]; cbn; intros H Hv; [|now inversion H]. destruct (glued_one _ _ H) as (g & G & ->). destruct (Hv v eq_refl) as (x & -> & Px). exists g, (B " "), x. repeat split; try exact Px; try apply G; apply sp1.
Qed.
Lemma glued_flag kw b t : glued (flagl b kw) t -> flag_text kw b t.
Proof. destruct b; cbn; intros H; [now apply glued_one|now inversion H]. Qed.
Lemma strs_join l : Forall (fun s => no 39 s /\ no 41 s) l -> l <> [] -> forall g, gap g -> strs_seq l (join (B " ") (map q_str l) ++ g).
Proof.
  induction 1 as [|s l (H1 & H2) F IH]; [congruence|]. intros _ g G. destruct l as [|s' l].
  - cbn [map join]. rewrite <- (app_nil_r g). constructor; [now split|exact H2|exact G|constructor].
  - change (join (B " ") (map q_str (s :: s' :: l)) ++ g) with ((q_str s ++ B " " ++ join (B " ") (map q_str (s' :: l))) ++ g). rewrite <- !app_assoc. constructor; [now split|exact H2|apply sp1|]. apply IH; [discriminate|exact G].
Qed.
Lemma paren_strs l : Forall (fun s => no 39 s /\ no 41 s) l -> exists g x, gap g /\ strs_seq l x /\ B "( " ++ join (B " ") (map q_str l) ++ B " )" = B "(" ++ g ++ x ++ B ")".
Proof.
  intros F. destruct l as [|s l].
  - exists (B "  "), []. repeat split; [repeat constructor|constructor].
  - exists (B " "), (join (B " ") (map q_str (s :: l)) ++ B " "). split; [apply sp1|]. split; [apply strs_join; [exact F|discriminate|apply sp1]|]. now rewrite <- !app_assoc.
Qed.
Lemma q_list_text l : name_ok (Some l) -> strs_text l (q_list l).
Proof.
  destruct l as [|s [|s' l]]; cbn [name_ok]; [tauto| |].
  - intros H. left. exists s. split; [reflexivity|]. now split.
  - intros F. right. exact (paren_strs _ F).
Qed.
Lemma oid_join l : Forall listed l -> l <> [] -> forall g, gap g -> oid_seq l (join (B " $ ") l ++ g).
Proof.
  induction 1 as [|w l H F IH]; [congruence|]. intros _ g G. destruct l as [|w' l].
  - cbn [join]. now constructor.
  - change (join (B " $ ") (w :: w' :: l) ++ g) with ((w ++ (B " " ++ B "$" ++ B " ") ++ join (B " $ ") (w' :: l)) ++ g). rewrite <- !app_assoc. constructor; [exact H|apply sp1|apply sp1|]. apply IH; [discriminate|exact G].
Qed.
Lemma d_list_text l : oids_ok l -> l <> [] -> oids_text (match l with [_] => false | _ => true end, l) (d_list l).
Proof.
  destruct l as [|w [|w' l]]; [congruence| |]; intros H _.
  - exists w. repeat split; apply H.
  - unfold d_list. exists (B " "), (join (B " $ ") (w :: w' :: l) ++ B " "). split; [apply sp1|]. split; [apply oid_join; [exact H|discriminate|apply sp1]|]. now rewrite <- !app_assoc.
Qed.
Lemma oidl_text kw l t : oids_ok l -> glued (oidl kw l) t -> oids_of kw l t.
Proof.
  intros H G. destruct l as [|w l]; [now inversion G|]. exists (match w :: l with [_] => false | _ => true end). apply (glued_opt kw oids_text (Some (_, w :: l)) (fun v => kw ++ B " " ++ d_list (snd v)) t G). intros v [= <-]. eexists. split; [reflexivity|]. exact (d_list_text (w :: l) H ltac:(discriminate)).
Qed.
Lemma sup_text s t : sup_ok s -> glued (oidl (B "SUP") (sup_items s)) t -> opt_text (B "SUP") oids_text (sup_of s) t.
Proof.
  intros (H & K) G. assert (E : sup_of s = match sup_items s with [] => None | w :: l => Some (match l with [] => false | _ => true end, w :: l) end) by (destruct s as [[|w [|w' l]]|[|w [|w' l]]]; cbn in *; tauto || reflexivity). rewrite E.
  destruct (sup_items s) as [|w l]; [now inversion G|].
  apply (glued_opt _ oids_text (Some (_, w :: l)) (fun v => B "SUP" ++ B " " ++ d_list (snd v)) t G). intros v [= <-]. eexists. split; [reflexivity|]. exact (d_list_text (w :: l) H ltac:(discriminate)).
Qed.
Lemma name_text n t : name_ok n -> glued (optl n (fun l => B "NAME " ++ q_list l)) t -> opt_text (B "NAME") strs_text n t.
Proof. intros H G. apply (glued_opt _ _ _ _ _ G). intros l ->. eexists. split; [reflexivity|]. now apply q_list_text. Qed.
Lemma desc_text n t : desc_ok n -> glued (optl n (fun s => B "DESC " ++ q_str s)) t -> opt_text (B "DESC") str_text n t.
Proof. intros H G. apply (glued_opt _ _ _ _ _ G). intros l ->. eexists. split; [reflexivity|]. now split. Qed.
Lemma word_opt_text kw kw' o t : (forall w, kw' ++ w = kw ++ B " " ++ w) -> word_opt o -> glued (optl o (fun w => kw' ++ w)) t -> opt_text kw word_text o t.
Proof. intros E H G. apply (glued_opt _ _ _ _ _ G). intros w ->. exists w. split; [apply E|]. now split. Qed.
Lemma name_ok_some n : name_ok n -> n <> Some []. Proof. intros H ->. exact H. Qed.
Theorem print_ocd_text d : ocd_ok d -> ocd_text d (print_ocd d).
Proof.
  intros (H1 & H2 & H3 & H4 & H5 & H6 & H7). unfold print_ocd. match goal with |- context[join NLSEP ?l] => destruct (glued_body l) as (t & g' & G & G' & E) end.
  apply glued_app in G as (t1 & u & -> & K1 & G). apply glued_app in G as (t2 & u2 & -> & K2 & G). apply glued_app in G as (t3 & u3 & -> & K3 & G). apply glued_app in G as (t4 & u4 & -> & K4 & G).
  apply glued_app in G as (t5 & u5 & -> & K5 & G). apply glued_app in G as (t6 & t7 & -> & K6 & K7).
  exists (B " "), t1, t2, t3, t4, t5, t6, t7, g'. split; [apply sp1|]. split; [exact G'|]. split; [exact H1|]. split; [now apply name_ok_some|]. split.
  - change (B "( ") with (B "(" ++ B " "). change (B " )") with (B " " ++ B ")"). rewrite <- (app_assoc (B "(")). f_equal. f_equal. f_equal. rewrite !app_assoc. rewrite !app_assoc in E. rewrite <- E. reflexivity.
  - split; [now apply name_text|]. split; [now apply desc_text|]. split; [now apply glued_flag|]. split; [now apply sup_text|]. split; [|split; now apply oidl_text]. left. split; [exact H5|]. now apply glued_one.
Qed.
Lemma glued_x l t : Forall x_ok l -> glued (map print_x l) t -> x_text l t.
Proof.
  intros F. revert t. induction F as [|(n & v) l (W & P & V) F IH]; cbn [map]; intros t G; [inversion G; constructor|].
  inversion G as [|g x l' t' G0 G' E1 E2]. subst. rewrite app_assoc. constructor; [exact W|exact P| |now apply IH]. cbn [fst snd] in *. destruct v as [s|vs]; cbn [print_x].
  - exists g, (B " "), (q_str s). repeat split; try exact V; try apply G0; apply sp1.
  - destruct (paren_strs vs V) as (g1 & x & Hg & Hx & E). exists g, (B " "), (B "( " ++ join (B " ") (map q_str vs) ++ B " )"). repeat split; try apply G0; try apply sp1. cbn. exists g1, x. now split; [exact Hg|split; [exact Hx|exact E]].
Qed.
Theorem print_atd_text d : atd_ok d -> atd_text d (print_atd d).
Proof.
  intros (H1 & H2 & H3 & H4 & H5 & H6). unfold print_atd. match goal with |- context[join NLSEP ?l] => destruct (glued_body l) as (t & g' & G & G' & E) end.
  apply glued_app in G as (t1 & u & -> & K1 & G). apply glued_app in G as (t2 & u2 & -> & K2 & G). apply glued_app in G as (t3 & u3 & -> & K3 & G). apply glued_app in G as (t4 & u4 & -> & K4 & G).
  apply glued_app in G as (t5 & u5 & -> & K5 & G). apply glued_app in G as (t6 & u6 & -> & K6 & G). apply glued_app in G as (t7 & u7 & -> & K7 & G). apply glued_app in G as (t8 & u8 & -> & K8 & G).
  apply glued_app in G as (t9 & u9 & -> & K9 & G). apply glued_app in G as (t10 & u10 & -> & K10 & G). apply glued_app in G as (t11 & u11 & -> & K11 & G). apply glued_app in G as (t12 & t13 & -> & K12 & K13).
  exists (B " "), t1, t2, t3, t4, t5, t6, t7, t8, t9, t10, t11, t12, t13, g'. split; [apply sp1|]. split; [exact G'|]. split; [exact H1|]. split; [now apply name_ok_some|]. split; [exact H5|]. split.
  - change (B "( ") with (B "(" ++ B " "). change (B " )") with (B " " ++ B ")"). rewrite <- (app_assoc (B "(")). f_equal. f_equal. f_equal. rewrite !app_assoc. rewrite !app_assoc in E. rewrite <- E. reflexivity.
  - assert (W : forall o, In o [a_sup d; a_equality d; a_ordering d; a_substr d; a_syntax d] -> word_opt o) by (now apply Forall_forall).
    split; [now apply name_text|]. split; [now apply desc_text|]. split; [now apply glued_flag|].
    split; [refine (word_opt_text _ _ _ _ _ _ K4); [reflexivity|apply W; cbn; auto]|]. split; [refine (word_opt_text _ _ _ _ _ _ K5); [reflexivity|apply W; cbn; auto]|].
    split; [refine (word_opt_text _ _ _ _ _ _ K6); [reflexivity|apply W; cbn; auto]|]. split; [refine (word_opt_text _ _ _ _ _ _ K7); [reflexivity|apply W; cbn; auto]|].
    split; [refine (word_opt_text _ _ _ _ _ _ K8); [reflexivity|apply W; cbn; auto 6]|].
    split; [now apply glued_flag|]. split; [now apply glued_flag|]. split; [now apply glued_flag|].
    split; [refine (word_opt_text _ _ _ _ _ _ K12); [reflexivity|]|now apply glued_x].
    destruct (a_usage d) as [u|]; [|exact I]. specialize (H5 u eq_refl). cbn in H5 |- *. intuition (subst; kw).
Qed.
Lemma true_glued kw kw' b t : kw' = kw ++ B " 'TRUE'" -> glued (flagl b kw') t -> true_text kw b t.
Proof. intros ->. destruct b; cbn; intros H; [now apply glued_one|now inversion H]. Qed.
Theorem print_syd_text d : syd_ok d -> syd_text d (print_syd d).
Proof.
  intros (H1 & H2). unfold print_syd. match goal with |- context[join _ (y_oid d :: ?l)] => destruct (glued_cons (y_oid d) l) as (t & G & E) end. rewrite E.
  apply glued_app in G as (t1 & u & -> & K1 & G). apply glued_app in G as (t2 & t3 & -> & K2 & K3).
  exists (B " "), t1, t2, t3, (B " "). split; [apply sp1|]. split; [apply sp1|]. split; [exact H1|]. split; [now rewrite <- !app_assoc|].
  split; [now apply desc_text|]. split; (eapply true_glued; [|eassumption]); reflexivity.
Qed.
Theorem print_mrd_text d : mrd_ok d -> mrd_text d (print_mrd d).
Proof.
  intros (H1 & H2 & H3 & H4). unfold print_mrd. match goal with |- context[join _ (m_oid d :: ?l)] => destruct (glued_cons (m_oid d) l) as (t & G & E) end. rewrite E.
  apply glued_app in G as (t1 & u & -> & K1 & G). apply glued_app in G as (t2 & u2 & -> & K2 & G). apply glued_app in G as (t3 & t4 & -> & K3 & K4).
  exists (B " "), t1, t2, t3, t4, (B " "). split; [apply sp1|]. split; [apply sp1|]. split; [exact H1|]. split; [now rewrite <- !app_assoc|].
  split; [now apply name_text|]. split; [now apply desc_text|]. split; [now apply glued_flag|]. refine (word_opt_text (B "SYNTAX") (B "SYNTAX ") (Some (m_syntax d)) t4 _ H4 K4). reflexivity.
Qed.

(** ** What comes out of the parsers *)
Lemma cut_no c t s r : cut c t = Ok (s, r) -> no c s /\ exists m, t = s ++ m :: r.
Proof.
  revert s. induction t as [|b t IH]; cbn; intros s; [discriminate|]. destruct (Z.eqb_spec (b2z b) c).
  - intros H. injection H as <- <-. split; [constructor|now exists b].
  - destruct (cut c t) as [(x & y)|] eqn:E; cbn; [|discriminate]. intros H. injection H as <- <-. destruct (IH x eq_refl) as (N & m & ->). split; [now constructor|now exists m].
Qed.
Lemma lstrip_part t : exists g, gap g /\ t = g ++ lstrip t.
Proof. induction t as [|c t (g & G & E)]; [exists []; split; [constructor|reflexivity]|]. cbn. destruct (space c) eqn:S; [|exists []; split; [constructor|reflexivity]]. exists (c :: g). split; [constructor; [now apply space_iff|exact G]|cbn; now f_equal]. Qed.
Lemma no_lstrip c t : no c t -> no c (lstrip t).
Proof. intros H. destruct (lstrip_part t) as (g & _ & E). rewrite E in H. now apply no_app in H. Qed.
Lemma strings_out k t l : strings_loop k t = Ok l -> no 41 t -> Forall (fun s => no 39 s /\ no 41 s) l.
Proof.
  revert t l. induction k as [|k IH]; cbn [strings_loop]; intros t l H N; [discriminate|]. apply no_lstrip in N. destruct (lstrip t) as [|c t'] eqn:E; [injection H as <-; constructor|].
  destruct (is_at 39 (c :: t')); [|discriminate]. cbn [negb tl] in H. destruct (cut 39 t') as [(s & r)|] eqn:C; [|discriminate]. cbn [bind] in H. destruct (strings_loop k r) as [l'|] eqn:R; [|discriminate]. cbn [bind] in H. injection H as <-.
  destruct (cut_no _ _ _ _ C) as (Ns & m & ->). inversion N as [|? ? _ N2]. subst. apply no_app in N2 as (N3 & N4). inversion N4 as [|? ? _ N5]. subst. constructor; [now split|]. now apply (IH r).
Qed.
Lemma strings_out' t s r l : cut 41 t = Ok (s, r) -> strings_to_list s = Ok l -> Forall (fun s => no 39 s /\ no 41 s) l.
Proof. intros C H. eapply strings_out; [exact H|]. now apply cut_no in C. Qed.
Lemma p_strings_out t l r : p_strings t = Ok (l, r) -> l <> [] -> name_ok (Some l).
Proof.
  unfold p_strings. intros H N. destruct (is_at 39 t).
  - destruct (cut 39 (tl t)) as [(s & r0)|] eqn:C; [|discriminate]. cbn in H. injection H as <- <-. cbn. now apply cut_no in C.
  - destruct (is_at 40 t); [|discriminate]. destruct (cut 41 (lstrip (tl t))) as [(s & r0)|] eqn:C; [|discriminate]. cbn [bind] in H. destruct (strings_to_list s) as [l'|] eqn:R; [|discriminate]. cbn in H. injection H as <- <-.
    pose proof (strings_out' _ _ _ _ C R) as F. destruct l' as [|x [|y l']]; [congruence| |exact F]. cbn. inversion F. tauto.
Qed.
Lemma p_name_out t n r : p_name t = Ok (n, r) -> n <> Some [] -> name_ok n.
Proof.
  unfold p_name. intros H N. destruct (peeks (B "NAME") t) as [[|]|]; try discriminate; cbn [bind] in H.
  - destruct (p_strings _) as [(l & r0)|] eqn:E; [|discriminate]. cbn in H. injection H as <- <-. eapply p_strings_out; [exact E|]. congruence.
  - injection H as <- <-. exact I.
Qed.
Lemma p_desc_out t n r : p_desc t = Ok (n, r) -> desc_ok n.
Proof.
  unfold p_desc. intros H. destruct (peeks (B "DESC") t) as [[|]|]; try discriminate; cbn [bind] in H.
  - destruct (is_at 39 _); [|discriminate]. cbn [negb] in H. destruct (cut 39 _) as [(l & r0)|] eqn:E; [|discriminate]. cbn in H. injection H as <- <-. now apply cut_no in E.
  - injection H as <- <-. exact I.
Qed.
Lemma word_of_out t w r : word_of t = (w, r) -> Forall (fun b => ~ is_space b) w.
Proof.
  revert w. induction t as [|c t IH]; cbn; intros w H; [injection H as <- <-; constructor|]. destruct (space c) eqn:S; [injection H as <- <-; constructor|]. destruct (word_of t) as (w' & s). injection H as <- <-. constructor; [now apply space_not|now apply IH].
Qed.
Lemma extract_out t w r : extractWord t = Ok (w, r) -> w = [] \/ word w.
Proof.
  unfold extractWord. destruct t as [|c t]; [intros H; injection H as <- <-; now left|]. destruct (word_of (lstrip (c :: t))) as (w' & s) eqn:E. apply word_of_out in E. destruct w' as [|b w']; [discriminate|]. intros H. injection H as <- <-. right. split; [discriminate|exact E].
Qed.
Lemma p_word_out kw t n r : p_word kw t = Ok (n, r) -> n <> Some [] -> word_opt n.
Proof.
  unfold p_word. intros H N. destruct (peeks kw t) as [[|]|]; try discriminate; cbn [bind] in H.
  - destruct (extractWord _) as [(l & r0)|] eqn:E; [|discriminate]. cbn in H. injection H as <- <-. apply extract_out in E as [->|E]; [destruct (N eq_refl)|exact E].
  - injection H as <- <-. exact I.
Qed.
Lemma p_x_out k t l : p_x k t = Ok l -> Forall x_ok l.
Proof.
  revert t l. induction k as [|k IH]; cbn [p_x]; intros t l H; [discriminate|]. unfold peekWord in H. destruct (lstrip t) as [|c t'] eqn:E; [cbn in H; injection H as <-; constructor|].
  destruct (word_of (lstrip (c :: t'))) as (w & s) eqn:W. destruct w as [|b w]; [discriminate|]. cbn [bind] in H. destruct (bytes_eqb (firstn 2 (b :: w)) (B "X-")) eqn:X; [|discriminate]. apply bytes_eqb_iff in X.
  destruct (p_xval _) as [(v & r)|] eqn:V; [|discriminate]. cbn [bind] in H. destruct (p_x k r) as [l'|] eqn:R; [|discriminate]. cbn in H. injection H as <-. constructor; [|now apply (IH r)].
  split; [split; [discriminate|now apply word_of_out in W]|]. split; [exact X|]. cbn [snd]. unfold p_xval in V. destruct (is_at 39 _).
  - destruct (cut 39 _) as [(s0 & r0)|] eqn:C; [|discriminate]. cbn in V. injection V as <- <-. now apply cut_no in C.
  - destruct (is_at 40 _); [|discriminate]. destruct (cut 41 _) as [(s0 & r0)|] eqn:C; [|discriminate]. cbn [bind] in V. destruct (strings_to_list s0) as [l0|] eqn:L; [|discriminate]. cbn in V. injection V as <- <-. exact (strings_out' _ _ _ _ C L).
Qed.
Ltac step H := match type of H with bind ?x _ = Ok _ => let E := fresh "E" in destruct x as [(? & ?)|] eqn:E; [cbn [bind] in H|discriminate H] end.
Theorem parsed_ocd t d : parse_ocd t = Ok d -> sup_ok (o_sup d) -> oids_ok (o_must d) -> oids_ok (o_may d) -> ocd_ok d.
Proof.
  unfold parse_ocd. intros H. do 8 step H. destruct (negb (bytes_eqb _ [])); [discriminate|]. destruct (oid_check b && name_check o) eqn:C; [|discriminate]. cbn [negb] in H. apply andb_prop in C as (C1 & C2). injection H as <-. cbn. intros S M1 M2.
  split; [now apply oid_check_iff|]. split; [apply (p_name_out _ _ _ E0); now apply name_check_iff|]. split; [apply (p_desc_out _ _ _ E1)|]. split; [exact S|]. split; [|now split].
  unfold p_type in E4. do 2 step E4. destruct (b9 && b11); [discriminate|]. step E4. destruct ((b9 || b11) && b13); [discriminate|]. injection E4 as <- <-. destruct b9, b11, b13; cbn; auto.
Qed.
Theorem parsed_atd t d : parse_atd t = Ok d -> words_there d -> atd_ok d.
Proof.
  unfold parse_atd. intros H. do 13 step H. destruct (p_x _ _) as [x|] eqn:X; [|discriminate]. cbn [bind] in H. destruct (oid_check b && name_check o && usage_check o6) eqn:C; [|discriminate]. cbn [negb] in H. apply andb_prop in C as (C & C3). apply andb_prop in C as (C1 & C2). injection H as <-. intros Wd. unfold words_there in Wd. cbn [a_sup a_equality a_ordering a_substr a_syntax] in Wd.
  split; [now apply oid_check_iff|]. split; [apply (p_name_out _ _ _ E0); now apply name_check_iff|]. split; [apply (p_desc_out _ _ _ E1)|]. split; [|split; [now apply usage_check_iff|exact (p_x_out _ _ _ X)]]. cbn.
  repeat (apply Forall_cons; [eapply p_word_out; [eassumption|apply Wd; cbn; auto 6]|]). constructor.
Qed.
Theorem parsed_syd t d : parse_syd t = Ok d -> syd_ok d.
Proof.
  unfold parse_syd. intros H. do 4 step H. destruct (negb (bytes_eqb _ [])); [discriminate|]. destruct (oid_check b) eqn:C; [|discriminate]. cbn [negb] in H. injection H as <-. split; [now apply oid_check_iff|apply (p_desc_out _ _ _ E0)].
Qed.
Theorem parsed_mrd t d : parse_mrd t = Ok d -> m_name d <> Some [] -> mrd_ok d.
Proof.
  unfold parse_mrd. intros H. do 5 step H. destruct (negb (bytes_eqb _ [])); [discriminate|]. destruct (oid_check b) eqn:C; [|discriminate]. cbn [negb] in H. destruct o1 as [[|c w]|] eqn:O; try discriminate. injection H as <-. cbn. intros N.
  split; [now apply oid_check_iff|]. split; [now apply (p_name_out _ _ _ E0)|]. split; [apply (p_desc_out _ _ _ E1)|]. exact (p_word_out _ _ _ _ E3 ltac:(discriminate)).
Qed.

(** ** Order of object classes *)
Lemma ltb_irrefl a : bytes_ltb a a = false.
Proof. induction a as [|x a IH]; [reflexivity|]. cbn. now rewrite Z.ltb_irrefl. Qed.
Lemma ltb_asym a b : bytes_ltb a b = true -> bytes_ltb b a = false.
Proof.
  revert b. induction a as [|x a IH]; intros [|y b]; cbn; try congruence. destruct (Z.ltb_spec (b2z x) (b2z y)), (Z.ltb_spec (b2z y) (b2z x)); try congruence; try lia. apply IH.
Qed.
Lemma ltb_trans a b c : bytes_ltb a b = true -> bytes_ltb b c = true -> bytes_ltb a c = true.
Proof.
  revert b c. induction a as [|x a IH]; intros [|y b] [|z c]; cbn; try congruence.
  destruct (Z.ltb_spec (b2z x) (b2z y)), (Z.ltb_spec (b2z y) (b2z x)), (Z.ltb_spec (b2z y) (b2z z)), (Z.ltb_spec (b2z z) (b2z y)), (Z.ltb_spec (b2z x) (b2z z)), (Z.ltb_spec (b2z z) (b2z x)); try congruence; try lia. apply IH.
Qed.
Lemma ltb_tie a b : bytes_ltb a b = false -> bytes_ltb b a = false -> a = b.
Proof.
  revert b. induction a as [|x a IH]; intros [|y b]; cbn; try congruence. destruct (Z.ltb_spec (b2z x) (b2z y)), (Z.ltb_spec (b2z y) (b2z x)); try congruence; try lia. intros H1 H2. f_equal; [|now apply IH]. apply b2z_inj. lia.
Qed.
Lemma list_eqb_refl l : list_eqb l l = true. Proof. induction l as [|x l IH]; [reflexivity|]. cbn. now rewrite bytes_eqb_same. Qed.
Lemma list_eqb_eq a b : list_eqb a b = true -> a = b.
Proof. revert b. induction a as [|x a IH]; intros [|y b]; cbn; try congruence. intros H. apply andb_prop in H as (H1 & H2). apply bytes_eqb_iff in H1. f_equal; auto. Qed.
Lemma opt_eqb_refl {A} (e : A -> A -> bool) o : (forall x, e x x = true) -> opt_eqb e o o = true. Proof. intros H. destruct o; [apply H|reflexivity]. Qed.
Lemma opt_eqb_eq {A} (e : A -> A -> bool) a b : (forall x y, e x y = true -> x = y) -> opt_eqb e a b = true -> a = b.
Proof. intros H. destruct a, b; cbn; try congruence. intros E. f_equal. now apply H. Qed.
Lemma sup_eqb_iff a b : sup_eqb a b = true <-> a = b.
Proof. split; [destruct a, b; cbn; try discriminate; intros H; f_equal; now apply list_eqb_eq|intros ->; destruct b; cbn; apply list_eqb_refl]. Qed.
Lemma ocd_eqb_iff a b : ocd_eqb a b = true <-> a = b.
Proof.
  split.
  - unfold ocd_eqb. intros H. repeat match goal with H : _ && _ = true |- _ => apply andb_prop in H as (? & ?) end. destruct a, b. cbn in *. f_equal; try (now apply bytes_eqb_iff); try (now apply list_eqb_eq); try (now apply sup_eqb_iff); try (now apply Bool.eqb_prop).
    + revert H6. apply opt_eqb_eq, list_eqb_eq.
    + revert H5. apply opt_eqb_eq. intros x y. apply bytes_eqb_iff.
  - intros ->. unfold ocd_eqb. rewrite !bytes_eqb_same, !list_eqb_refl, Bool.eqb_reflx, (proj2 (sup_eqb_iff _ _) eq_refl). rewrite opt_eqb_refl by apply list_eqb_refl. rewrite opt_eqb_refl by apply bytes_eqb_same. reflexivity.
Qed.
Lemma up_folded x : folded x (map up_byte x).
Proof.
  induction x as [|c x IH]; constructor; [|exact IH]. unfold fold_char, up_byte. destruct (97 <=? b2z c) eqn:E1, (b2z c <=? 122) eqn:E2; cbn [andb]; try (right; split; [lia|reflexivity]). left. split; [lia|]. rewrite b2z_z2b; lia.
Qed.
Lemma folded_fun x k k' : folded x k -> folded x k' -> k = k'.
Proof.
  intros F. revert k'. induction F as [|c d x k H F IH]; intros k' G; inversion G as [|c' d' x' k2 H' F' E1 E2]; subst; [reflexivity|]. f_equal; [|now apply IH]. unfold fold_char in *. destruct H as [(H1 & H2)|(H1 & ->)], H' as [(H3 & H4)|(H3 & ->)]; try lia; [apply b2z_inj; lia|reflexivity].
Qed.
Lemma ltb_before a b : bytes_ltb a b = true <-> before a b.
Proof.
  split.
  - revert b. induction a as [|x a IH]; intros [|y b]; cbn; try discriminate; [intros _; constructor|]. destruct (Z.ltb_spec (b2z x) (b2z y)), (Z.ltb_spec (b2z y) (b2z x)); intros; try discriminate; try (now constructor). assert (x = y) by (apply b2z_inj; lia). subst. apply BeforeLater. now apply IH.
  - induction 1 as [|x y a b H|x a b H IH]; cbn; [reflexivity| |].
    + destruct (Z.ltb_spec (b2z x) (b2z y)); [reflexivity|lia].
    + now rewrite Z.ltb_irrefl.
Qed.
Lemma lt_key a b ka kb : named_as a ka -> named_as b kb -> ocd_lt a b = Ok (bytes_ltb ka kb) /\ ocd_gt a b = Ok (bytes_ltb kb ka).
Proof.
  intros (x & l & E & Fx) (y & m & G & Fy). unfold ocd_lt, ocd_gt. rewrite E, G. now rewrite (folded_fun _ _ _ Fx (up_folded x)), (folded_fun _ _ _ Fy (up_folded y)).
Qed.
