(** The attributes of an entry after a move: the values of the old RDN are gone, those of the new one
    are there. *)
From Verif Require Import Base BaseFacts Utf8Model Utf8Proofs DnModel DnSpec EntryModel EntrySpec EntryProofs LdifSpec InmemModel InmemProofs InmemMove LdifTreeModel.

(** ** Specification *)
(** The RDN [r] says that attribute [k] (up to the case of ASCII letters) has value [v]. *)
Definition rdn_says (r : rdn) (k v : bytes) : Prop :=
  exists a t, In a r /\ utf8_encode (a_type a) = Ok t /\ lower_bytes t = lower_bytes k /\ utf8_encode (a_value a) = Ok v.
(** Entries as they are read from LDIF or from the wire, or changed since: the names are octets, no name
    is there twice (up to case), and no octets are twice among the values of an attribute. *)
Definition octet_sets (lower : str -> str) (e : entry) : Prop :=
  Forall (fun a => (exists k, s_key a = PBytes k) /\ NoDup (map to_bytes (s_vals a))) (e_attrs e) /\
  NoDup (map (fun a => lowv lower (s_key a)) (e_attrs e)).

(** ** Sets *)
Lemma denotes_in l b : denotes l b <-> In (Ok b) (map to_bytes l).
Proof. unfold denotes. rewrite in_map_iff. split; intros (v & H1 & H2); exists v; auto. Qed.
Lemma map_inj_in {A C} (g : A -> C) l x y : NoDup (map g l) -> In x l -> In y l -> g x = g y -> x = y.
Proof.
  induction l as [|z l IH]; [intros _ []|]. cbn [map In]. intros N [->|Ix] [->|Iy] E; try reflexivity; inversion N as [|? ? Nz N']; subst.
  - destruct Nz. rewrite E. now apply in_map.
  - destruct Nz. rewrite <- E. now apply in_map.
  - now apply IH.
Qed.
Lemma filter_NoDup {A C} (g : A -> C) (p : A -> bool) l : NoDup (map g l) -> NoDup (map g (filter p l)).
Proof.
  induction l as [|z l IH]; [auto|]. cbn [map filter]. intros N. inversion N as [|? ? Nz N']; subst. destruct (p z); [|now apply IH]. cbn [map]. constructor; [|now apply IH]. intros I. apply Nz. apply in_map_iff in I as (y & E & I). apply filter_In in I as (I & _). rewrite <- E. now apply in_map.
Qed.
Lemma remove_octets s b l l' : utf8_encode s = Ok b -> NoDup (map to_bytes l) -> aset_remove (PStr s) l = Ok l' ->
  NoDup (map to_bytes l') /\ forall c, denotes l' c <-> denotes l c /\ c <> b.
Proof.
  intros E N. unfold aset_remove, get_strings. rewrite E. cbn [bind]. destruct (find _ _) as [k|] eqn:F; [|discriminate]. intros H. apply Ok_inj in H. subst l'. apply find_some in F as (I & M). apply mem_In in M.
  assert (K : to_bytes k = Ok b) by (apply (forms_same k b s E); destruct I as [<-|[<-|[]]]; auto). unfold set_del. split; [now apply filter_NoDup|].
  intros c. unfold denotes. split.
  - intros (v & Iv & Tv). apply filter_In in Iv as (Iv & D). split; [now exists v|]. intros ->. assert (k = v) by (apply (map_inj_in to_bytes l); congruence). subst v. rewrite pyval_eqb_refl in D. discriminate.
  - intros ((v & Iv & Tv) & Nc). exists v. split; [|exact Tv]. apply filter_In. split; [exact Iv|]. destruct (pyval_eqb k v) eqn:Q; [|reflexivity]. apply pyval_eqb_eq in Q. congruence.
Qed.
Lemma add_octets s b l l' : utf8_encode s = Ok b -> NoDup (map to_bytes l) -> aset_add (PStr s) l = Ok l' ->
  NoDup (map to_bytes l') /\ forall c, denotes l' c <-> denotes l c \/ c = b.
Proof.
  intros E N. unfold aset_add, get_strings. rewrite E. cbn [bind]. intros H. apply Ok_inj in H. pose proof (existsb_forms l b s E) as EF. destruct (existsb _ _) eqn:X.
  - subst l'. split; [exact N|]. intros c. assert (D : denotes l b) by (apply EF; cbn [existsb] in X; rewrite !orb_true_iff, !mem_In in X; intuition congruence). split; [auto|]. intros [H| ->]; assumption.
  - assert (D : ~ denotes l b) by (intros D; apply EF in D; cbn [existsb] in X; rewrite !orb_false_iff in X; destruct X as (X1 & X2 & _), D as [D|D]; apply mem_In in D; congruence).
    assert (M : mem (PStr s) l = false) by (cbn [existsb] in X; apply orb_false_iff in X; apply X). unfold set_add in H. rewrite M in H. subst l'. rewrite map_app. cbn [map to_bytes]. change (to_bytes (PStr s)) with (utf8_encode s). rewrite E. split.
    + apply NoDup_snoc. { exact N. } { intros I. apply D. now apply denotes_in. }
    + intros c. rewrite !denotes_in, map_app, in_app_iff. cbn [map In]. change (to_bytes (PStr s)) with (utf8_encode s). rewrite E. intuition congruence.
Qed.

(** ** Entries *)
Section Values.
  Variable lower : str -> str.
  Lemma find_octets ty t e s : octet_sets lower e -> utf8_encode ty = Ok t -> getitem lower (PStr ty) e = Ok s -> In s (e_attrs e) /\ lowv lower (s_key s) = PBytes (lower_bytes t).
  Proof.
    intros (F & N) E. unfold getitem, find_key, get_strings. rewrite E. cbn [bind fold_right]. rewrite Forall_forall in F. destruct (dict_get lower (PStr ty) (e_attrs e)) as [a|] eqn:D1.
    - apply dict_get_some in D1 as (I & K). destruct (F a I) as ((k & Ek) & _). rewrite Ek in K. discriminate.
    - destruct (dict_get lower (PBytes t) (e_attrs e)) as [a|] eqn:D2; [|discriminate]. intros H. apply Ok_inj in H. subst a. now apply dict_get_some in D2.
  Qed.
  Lemma set_says ty t e s l : octet_sets lower e -> utf8_encode ty = Ok t -> getitem lower (PStr ty) e = Ok s -> NoDup (map to_bytes l) ->
    octet_sets lower (set_vals lower s l e) /\
    (forall k v, lower_bytes t = lower_bytes k -> (says (set_vals lower s l e) k v <-> denotes l v) /\ (says e k v <-> denotes (s_vals s) v)) /\
    (forall k v, lower_bytes t <> lower_bytes k -> (says (set_vals lower s l e) k v <-> says e k v)).
  Proof.
    intros O E G Nl. pose proof (find_octets ty t e s O E G) as (I & K). destruct O as (F & N). pose proof F as F0. rewrite Forall_forall in F0.
    assert (Hs : forall a, In a (e_attrs e) -> lowv lower (s_key a) = lowv lower (s_key s) -> a = s) by (intros a Ia Q; now apply (lowkeys_inj lower (e_attrs e))).
    assert (Up : forall b, In b (dict_upd lower (s_key s) (fun _ => l) (e_attrs e)) <-> b = mkSet (s_key s) l \/ (In b (e_attrs e) /\ lowv lower (s_key b) <> lowv lower (s_key s))).
    { intros b. rewrite (In_dict_upd lower _ _ _ b N). split; intros [H|H]; auto; left.
      - destruct H as (a & Ia & Q & ->). now rewrite (Hs a Ia Q).
      - exists s. subst b. auto. }
    assert (Sk : exists k, s_key s = PBytes k) by apply (F0 s I). destruct Sk as (k0 & Sk).
    assert (Oct : forall b k, In b (e_attrs e) -> to_bytes (s_key b) = Ok k -> lowv lower (s_key b) = PBytes (lower_bytes k)) by (intros b k Ib T; destruct (F0 b Ib) as ((k' & Q) & _); rewrite Q in *; apply Ok_inj in T; now subst k').
    split; [split|split].
    - cbn [e_attrs set_vals]. apply Forall_forall. intros b Ib. apply Up in Ib as [->|(Ib & _)]; [|now apply F0]. cbn [s_key s_vals]. split; [now exists k0|exact Nl].
    - cbn [e_attrs set_vals]. pose proof (lowkeys_upd lower (s_key s) (fun _ => l) (e_attrs e)) as Q. unfold lowkeys in Q. rewrite Q. exact N.
    - intros k v Q. split.
      + unfold says. cbn [e_attrs set_vals]. split.
        * intros (a & k' & Ia & T & L & D). apply Up in Ia as [->|(Ia & Na)]; [exact D|]. destruct Na. rewrite (Oct a k' Ia T), K. congruence.
        * intros D. exists (mkSet (s_key s) l), k0. split; [apply Up; now left|]. cbn [s_key s_vals]. rewrite Sk. split; [reflexivity|]. split; [|exact D]. rewrite Sk in K. cbn in K. congruence.
      + unfold says. split.
        * intros (a & k' & Ia & T & L & D). assert (a = s) by (apply Hs; [exact Ia|]; rewrite (Oct a k' Ia T), K; congruence). now subst a.
        * intros D. exists s, k0. split; [exact I|]. rewrite Sk in *. split; [reflexivity|]. split; [|exact D]. cbn in K. congruence.
    - intros k v Q. unfold says. cbn [e_attrs set_vals]. split; intros (a & k' & Ia & T & L & D).
      + apply Up in Ia as [->|(Ia & _)]; [|now exists a, k']. cbn [s_key] in T. rewrite Sk in *. apply Ok_inj in T. subst k'. cbn in K. destruct Q. congruence.
      + exists a, k'. split; [|auto]. apply Up. right. split; [exact Ia|]. rewrite (Oct a k' Ia T), K. congruence.
  Qed.

  Lemma av_encodes a e s : getitem lower (PStr (a_type a)) e = Ok s -> exists t, utf8_encode (a_type a) = Ok t.
  Proof. unfold getitem, find_key, get_strings. destruct (utf8_encode (a_type a)) as [t|]; [now exists t|discriminate]. Qed.
  Lemma rdn_says_one a k v t b : utf8_encode (a_type a) = Ok t -> utf8_encode (a_value a) = Ok b -> rdn_says [a] k v <-> lower_bytes t = lower_bytes k /\ v = b.
  Proof.
    intros Et Eb. unfold rdn_says. split.
    - intros (a' & t' & [<-|[]] & E1 & E2 & E3). split; congruence.
    - intros (E & ->). exists a, t. cbn. auto.
  Qed.
  Lemma remove_says a e e' : octet_sets lower e -> remove_av lower a e = Ok e' -> octet_sets lower e' /\ forall k v, says e' k v <-> says e k v /\ ~ rdn_says [a] k v.
  Proof.
    intros O. unfold remove_av. destruct (getitem lower (PStr (a_type a)) e) as [s|] eqn:G; [|discriminate]. cbn [bind]. destruct (av_encodes a e s G) as (t & Et). destruct (aset_remove (PStr (a_value a)) (s_vals s)) as [l|] eqn:R; [|discriminate]. cbn [bind]. intros H. apply Ok_inj in H. subst e'.
    assert (Eb : exists b, utf8_encode (a_value a) = Ok b) by (unfold aset_remove, get_strings in R; destruct (utf8_encode (a_value a)) as [b|]; [now exists b|discriminate]). destruct Eb as (b & Eb).
    destruct (find_octets _ _ e s O Et G) as (I & _). destruct O as (F & N). pose proof F as F0. rewrite Forall_forall in F0. destruct (F0 s I) as (_ & Ns). destruct (remove_octets _ b _ l Eb Ns R) as (Nl & D).
    destruct (set_says _ _ e s l (conj F N) Et G Nl) as (O' & S1 & S2). split; [exact O'|]. intros k v. rewrite (rdn_says_one a k v t b Et Eb). destruct (list_eq_dec Byte.byte_eq_dec (lower_bytes t) (lower_bytes k)) as [Q|Q].
    - destruct (S1 k v Q) as (Q1 & Q2). rewrite Q1, Q2, D. tauto.
    - rewrite (S2 k v Q). tauto.
  Qed.
  Lemma add_says a e e' : octet_sets lower e -> add_av lower a e = Ok e' -> octet_sets lower e' /\ forall k v, says e' k v <-> says e k v \/ rdn_says [a] k v.
  Proof.
    intros O. unfold add_av. destruct (getitem lower (PStr (a_type a)) e) as [s|] eqn:G; [|discriminate]. cbn [bind]. destruct (av_encodes a e s G) as (t & Et). destruct (aset_add (PStr (a_value a)) (s_vals s)) as [l|] eqn:R; [|discriminate]. cbn [bind]. intros H. apply Ok_inj in H. subst e'.
    assert (Eb : exists b, utf8_encode (a_value a) = Ok b) by (unfold aset_add, get_strings in R; destruct (utf8_encode (a_value a)) as [b|]; [now exists b|discriminate]). destruct Eb as (b & Eb).
    destruct (find_octets _ _ e s O Et G) as (I & _). destruct O as (F & N). pose proof F as F0. rewrite Forall_forall in F0. destruct (F0 s I) as (_ & Ns). destruct (add_octets _ b _ l Eb Ns R) as (Nl & D).
    destruct (set_says _ _ e s l (conj F N) Et G Nl) as (O' & S1 & S2). split; [exact O'|]. intros k v. rewrite (rdn_says_one a k v t b Et Eb). destruct (list_eq_dec Byte.byte_eq_dec (lower_bytes t) (lower_bytes k)) as [Q|Q].
    - destruct (S1 k v Q) as (Q1 & Q2). rewrite Q1, Q2, D. tauto.
    - rewrite (S2 k v Q). tauto.
  Qed.
  Lemma rdn_says_cons a r k v : rdn_says (a :: r) k v <-> rdn_says [a] k v \/ rdn_says r k v.
  Proof.
    unfold rdn_says. cbn [In]. split.
    - intros (x & t & [<-|I] & H); [left; exists a, t; auto|right; exists x, t; auto].
    - intros [(x & t & [<-|[]] & H)|(x & t & I & H)]; [exists a, t; auto|exists x, t; auto].
  Qed.
  Lemma rdn_says_nil k v : ~ rdn_says [] k v. Proof. intros (a & t & [] & _). Qed.
  Lemma removes_say : forall r e e', octet_sets lower e -> each_value (remove_av lower) r e = Ok e' -> octet_sets lower e' /\ forall k v, says e' k v <-> says e k v /\ ~ rdn_says r k v.
  Proof.
    induction r as [|a r IH]; intros e e' O H; cbn [each_value] in H; [apply Ok_inj in H; subst; split; [exact O|]; intros k v; pose proof (rdn_says_nil k v); tauto|].
    destruct (remove_av lower a e) as [e1|] eqn:E; [|discriminate]. cbn [bind] in H. destruct (remove_says a e e1 O E) as (O1 & S1). destruct (IH e1 e' O1 H) as (O2 & S2). split; [exact O2|]. intros k v. rewrite S2, S1, (rdn_says_cons a r). tauto.
  Qed.
  Lemma adds_say : forall r e e', octet_sets lower e -> each_value (add_av lower) r e = Ok e' -> octet_sets lower e' /\ forall k v, says e' k v <-> says e k v \/ rdn_says r k v.
  Proof.
    induction r as [|a r IH]; intros e e' O H; cbn [each_value] in H; [apply Ok_inj in H; subst; split; [exact O|]; intros k v; pose proof (rdn_says_nil k v); tauto|].
    destruct (add_av lower a e) as [e1|] eqn:E; [|discriminate]. cbn [bind] in H. destruct (add_says a e e1 O E) as (O1 & S1). destruct (IH e1 e' O1 H) as (O2 & S2). split; [exact O2|]. intros k v. rewrite S2, S1, (rdn_says_cons a r). tauto.
  Qed.
  Lemma says_attrs e e' k v : e_attrs e' = e_attrs e -> says e' k v <-> says e k v.
  Proof. intros E. unfold says. now rewrite E. Qed.
  Lemma moved_says o n e e1 e2 e' : octet_sets lower e -> each_value (remove_av lower) o e = Ok e1 -> each_value (add_av lower) n e1 = Ok e2 -> e_attrs e' = e_attrs e2 ->
    octet_sets lower e' /\ forall k v, says e' k v <-> (says e k v /\ ~ rdn_says o k v) \/ rdn_says n k v.
  Proof.
    intros O E1 E2 E. destruct (removes_say o e e1 O E1) as (O1 & S1). destruct (adds_say n e1 e2 O1 E2) as (O2 & S2). split; [unfold octet_sets in *; now rewrite E|]. intros k v. rewrite (says_attrs _ _ k v E), S2, S1. tauto.
  Qed.
End Values.

(** ** In the in-memory directory *)
Lemma each_av_value g (D : forall a e e', g a e = Ok e' -> e_dn e' = e_dn e) : forall avs h r n h' u, nth_error h r = Some n -> each_av g h r avs = (h', Ok u) ->
  exists e', each_value g avs (n_entry n) = Ok e' /\ nth_error h' r = Some (set_entry n e').
Proof.
  induction avs as [|a avs IH]; intros h r n h' u N; cbn [each_av each_value]; [intros [= <- _]; exists (n_entry n); split; [reflexivity|]; now destruct n|].
  unfold upd_entry, deref. rewrite N. cbn [bind]. destruct (g a (n_entry n)) as [e1|] eqn:G; [|discriminate]. cbn [bind]. intros H. apply (IH _ r (set_entry n e1)) in H; [exact H|]. now rewrite nth_set_nth, Nat.eqb_refl, N.
Qed.
Lemma rename_values lower h r d h' n : rename lower h r d = (h', Ok tt) -> nth_error h r = Some n -> octet_sets lower (n_entry n) ->
  exists n', nth_error h' r = Some n' /\ n_dn n' = d /\ octet_sets lower (n_entry n') /\
    forall k v, says (n_entry n') k v <-> (says (n_entry n) k v /\ ~ rdn_says (hd [] (n_dn n)) k v) \/ rdn_says (hd [] d) k v.
Proof.
  unfold rename. intros H N O. rewrite N in H. destruct (n_dn n) as [|ord rest]; [discriminate|]. destruct (each_av (remove_av lower) h r ord) as (h1 & [u|]) eqn:E1; [|discriminate]. destruct d as [|nrd drest]; [discriminate|].
  destruct (each_av (add_av lower) h1 r nrd) as (h2 & [u2|]) eqn:E2; [|discriminate]. destruct (each_av_value _ (remove_av_dn lower) _ _ _ n _ _ N E1) as (e1 & V1 & N1). destruct (each_av_value _ (add_av_dn lower) _ _ _ _ _ _ N1 E2) as (e2 & V2 & N2). cbn [n_entry set_entry] in V2.
  unfold upd_entry, deref in H. rewrite N2 in H. cbn [bind] in H. injection H as <-. eexists. rewrite nth_set_nth, Nat.eqb_refl, N2. split; [reflexivity|]. split; [reflexivity|]. cbn [n_entry set_entry hd].
  apply (moved_says lower ord nrd (n_entry n) e1 e2); auto.
Qed.
(** Links do not matter to entries. *)
Definition entries_kept (h h' : heap) : Prop := forall q, option_map n_entry (nth_error h' q) = option_map n_entry (nth_error h q).
Lemma kept_set h p m cs : nth_error h p = Some m -> entries_kept h (set_nth p (set_children m cs) h).
Proof. intros N q. rewrite nth_set_nth. destruct (Nat.eqb_spec p q) as [<-|]; [now rewrite N|reflexivity]. Qed.
Lemma relink_kept h r np d h1 o : relink h r np d = (h1, o) -> entries_kept h h1.
Proof.
  unfold relink. destruct d as [|nrd d]; [intros [= <- _]; easy|]. unfold deref at 1. destruct (nth_error h np) as [m|] eqn:N; [|intros [= <- _]; easy]. intros H. apply (f_equal fst) in H. cbn [fst] in H. subst h1. now apply kept_set.
Qed.
Lemma unlink_kept h r : entries_kept h (unlink h r).
Proof.
  unfold unlink. destruct (nth_error h r) as [n|]; [|easy]. destruct (n_parent n) as [p|]; [|easy]. destruct (n_dn n) as [|ord rest]; [easy|]. destruct (nth_error h p) as [q|] eqn:N; [|easy]. now apply kept_set.
Qed.
Lemma move_values lower depth h r d h' n : move lower depth h r d = (h', Ok tt) -> nth_error h r = Some n -> octet_sets lower (n_entry n) ->
  (exists n', nth_error h' r = Some n' /\ n_dn n' = d /\ octet_sets lower (n_entry n') /\
    forall k v, says (n_entry n') k v <-> (says (n_entry n) k v /\ ~ rdn_says (hd [] (n_dn n)) k v) \/ rdn_says (hd [] d) k v) /\
  forall q, q <> r -> option_map n_entry (nth_error h' q) = option_map n_entry (nth_error h q).
Proof.
  intros H N O. assert (X : exists h0, rename lower h0 r d = (h', Ok tt) /\ entries_kept h h0).
  { unfold move, deref in H. rewrite N in H. destruct (negb _); [|exists h; split; [exact H|easy]]. destruct (bind _ _) as [np|]; [|discriminate]. destruct (relink h r np d) as (h1 & [u|]) eqn:R; [|discriminate]. exists (unlink h1 r). split; [exact H|]. intros q. rewrite (unlink_kept h1 r q). now apply (relink_kept h r np d h1 _ R). }
  destruct X as (h0 & R & K). split.
  - pose proof (K r) as Kr. rewrite N in Kr. destruct (nth_error h0 r) as [n0|] eqn:N0; [|discriminate]. cbn in Kr. injection Kr as Kr. unfold n_dn at 2. rewrite <- Kr in *. now apply (rename_values lower h0 r d h').
  - intros q Nq. rewrite <- (K q). destruct (rename_spec lower h0 r d h' R) as (_ & F). specialize (F q). destruct (nth_error h0 q) as [m|]; [|now rewrite F]. destruct F as (m' & N' & _ & _ & Eq). rewrite N'. cbn. now rewrite (Eq Nq).
Qed.
