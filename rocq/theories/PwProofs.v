(** Proofs about the password functions. *)
From Verif Require Import Base BaseFacts Utf8Model Utf8Proofs DnModel EntryModel EntryProofs LdifModel LdifProofs PwModel PwSpec.

(** ** rstrip *)
Lemma rstrip_space x c : is_space c = true -> rstrip (x ++ [c]) = rstrip x.
Proof. intros H. induction x as [|a x IH]; cbn; [now rewrite H|]. now rewrite IH. Qed.
Lemma rstrip_keep x c : is_space c = false -> rstrip (x ++ [c]) = x ++ [c].
Proof.
  intros H. induction x as [|a x IH]; cbn; [now rewrite H|]. rewrite IH. destruct x; reflexivity.
Qed.

(** ** encodebytes *)
Lemma dec_triples n : forall s t, length s = (3 * n)%nat ->
  b64_decode_loop (b64_encode s ++ t) 0 0 0 = (do r <- b64_decode_loop t 0 0 0; Ok (s ++ r)).
Proof.
  induction n as [|n IH]; intros s t L.
  - destruct s; [|cbn in L; lia]. cbn. destruct (b64_decode_loop t 0 0 0); reflexivity.
  - destruct s as [|a [|b [|c r]]]; cbn [length] in L; try lia.
    cbn [b64_encode app]. pose proof (b2z_range a). pose proof (b2z_range b). pose proof (b2z_range c).
    assert (Q : forall x, (x =? 0) = (x =? 0)) by reflexivity.
    rewrite dec_char by (split; [apply Z.div_pos|apply Z.div_lt_upper_bound]; lia).
    change (0 =? 0) with true. cbn [app].
    pose proof (Z.mod_pos_bound (b2z a) 4 ltac:(lia)). pose proof (Z.mod_pos_bound (b2z b) 16 ltac:(lia)).
    pose proof (Z.mod_pos_bound (b2z c) 64 ltac:(lia)).
    assert (0 <= b2z b / 16 < 16) by (split; [apply Z.div_pos|apply Z.div_lt_upper_bound]; lia).
    assert (0 <= b2z c / 64 < 4) by (split; [apply Z.div_pos|apply Z.div_lt_upper_bound]; lia).
    rewrite dec_char by lia. change (1 =? 0) with false. change (1 =? 1) with true. cbn iota.
    rewrite dec_char by lia. change (2 =? 0) with false. change (2 =? 1) with false. change (2 =? 2) with true. cbn iota.
    rewrite dec_char by lia. change (3 =? 0) with false. change (3 =? 1) with false. change (3 =? 2) with false. cbn iota.
    rewrite IH by lia.
    destruct (b64_decode_loop t 0 0 0) as [x|x]; [|reflexivity]. cbn [bind]. f_equal. cbn [app].
    assert (z2b (b2z a / 4 * 4 + (b2z a mod 4 * 16 + b2z b / 16) / 16) = a).
    { rewrite <- (z2b_b2z a) at 3. f_equal. rewrite Z.add_comm, Z.div_add_l by lia.
      rewrite (Z.div_small (b2z b / 16) 16) by lia. pose proof (Z.div_mod (b2z a) 4). lia. }
    assert (z2b ((b2z a mod 4 * 16 + b2z b / 16) mod 16 * 16 + (b2z b mod 16 * 4 + b2z c / 64) / 4) = b).
    { rewrite <- (z2b_b2z b) at 3. f_equal. rewrite (Z.add_comm (b2z a mod 4 * 16)), Z.mod_add by lia.
      rewrite (Z.mod_small (b2z b / 16) 16) by lia. rewrite Z.div_add_l by lia.
      rewrite (Z.div_small (b2z c / 64) 4) by lia. pose proof (Z.div_mod (b2z b) 16). lia. }
    assert (z2b ((b2z b mod 16 * 4 + b2z c / 64) mod 4 * 64 + b2z c mod 64) = c).
    { rewrite <- (z2b_b2z c) at 3. f_equal. rewrite (Z.add_comm (b2z b mod 16 * 4)), Z.mod_add by lia.
      rewrite (Z.mod_small (b2z c / 64) 4) by lia. pose proof (Z.div_mod (b2z c) 64). lia. }
    congruence.
Qed.

Lemma b64_last n : forall s, (length s <= n)%nat -> s <> [] -> exists x c, b64_encode s = x ++ [c] /\ is_space c = false.
Proof.
  assert (C : forall z, 0 <= z < 64 -> is_space (b64_char z) = false).
  { intros z H. destruct (b64_char_line z H) as (H1 & H2 & H3). unfold is_space, b64_char.
    rewrite b2z_z2b_small by (repeat match goal with |- context [if ?b then _ else _] => destruct b eqn:? end; lia).
    repeat match goal with |- context [if ?b then _ else _] => destruct b eqn:? end; lia. }
  induction n as [|n IH]; intros [|a [|b [|c r]]] L N; cbn [length] in L; try lia; try contradiction; cbn [b64_encode].
  - exists [b64_char (b2z a / 4); b64_char (b2z a mod 4 * 16); PAD], PAD. split; reflexivity.
  - eexists [_; _; _], PAD. split; reflexivity.
  - destruct r as [|d r].
    + eexists [_; _; _], _. split; [reflexivity|]. apply C. apply Z.mod_pos_bound; lia.
    + destruct (IH (d :: r)) as (x & e & E & S); [cbn [length] in *; lia|discriminate|].
      rewrite E. eexists (_ :: _ :: _ :: _ :: x), e. split; [reflexivity|exact S].
Qed.

Lemma nl_skip t : b64_decode_loop (NL :: t) 0 0 0 = b64_decode_loop t 0 0 0.
Proof. reflexivity. Qed.

(** The lines, without the last newline, end in a character that is not a space and decode to what
    was encoded. *)
Lemma lines_spec f : forall s, (length s <= f)%nat -> s <> [] -> exists x c, encode_lines f s = x ++ [c; NL] /\ is_space c = false
  /\ b64_decode (x ++ [c]) = Ok s.
Proof.
  induction f as [|f IH]; intros s L N; [destruct s; [contradiction|cbn in L; lia]|].
  destruct s as [|a s0]; [contradiction|]. set (s := a :: s0) in *.
  assert (E : encode_lines (S f) s = b64_encode (firstn 57 s) ++ [NL] ++ encode_lines f (skipn 57 s)) by reflexivity.
  rewrite E. clear E.
  destruct (skipn 57 s) as [|b r] eqn:K.
  - replace (encode_lines f []) with (@nil byte) by (destruct f; reflexivity).
    assert (F : firstn 57 s = s) by (rewrite <- (firstn_skipn 57 s) at 2; rewrite K; now rewrite app_nil_r).
    rewrite F. destruct (b64_last (length s) s (le_n _) N) as (x & c & E & S). rewrite E.
    exists x, c. split; [now rewrite <- app_assoc|]. split; [exact S|]. rewrite <- E. apply b64_roundtrip.
  - assert (L57 : (57 < length s)%nat).
    { assert (length (skipn 57 s) = S (length r)) by now rewrite K. rewrite skipn_length in H. lia. }
    destruct (IH (b :: r)) as (x & c & E & S & D).
    + rewrite <- K, skipn_length. lia.
    + discriminate.
    + rewrite E. exists (b64_encode (firstn 57 s) ++ [NL] ++ x), c. split; [now rewrite <- !app_assoc|].
      split; [exact S|]. unfold b64_decode. rewrite <- !app_assoc.
      rewrite (dec_triples 19) by (rewrite firstn_length; lia).
      cbn [app]. rewrite nl_skip. unfold b64_decode in D. rewrite D. cbn [bind]. now rewrite <- K, firstn_skipn.
Qed.

Lemma decode_encodebytes s : b64_decode (rstrip (encodebytes s)) = Ok s.
Proof.
  destruct s as [|a s]; [reflexivity|]. unfold encodebytes.
  destruct (lines_spec _ (a :: s) (le_n _) ltac:(discriminate)) as (x & c & E & S & D). rewrite E.
  change [c; NL] with ([c] ++ [NL]). rewrite app_assoc, rstrip_space by reflexivity.
  now rewrite rstrip_keep.
Qed.

Section Pw.
  Variable sha : bytes -> bytes.
  Variable lower : str -> str.
  Variable str_first : bool.

  Lemma digest_prefix pw salt : starts_with (B "{SSHA}") (sshaDigest sha pw salt) = true.
  Proof. apply starts_with_spec. now eexists. Qed.
  Lemma digest_body pw salt : skipn 6 (sshaDigest sha pw salt) = rstrip (encodebytes (sha (pw ++ salt) ++ salt)).
  Proof. reflexivity. Qed.
  Lemma digest_inj pw salt pw' salt' : sshaDigest sha pw salt = sshaDigest sha pw' salt' ->
    sha (pw ++ salt) ++ salt = sha (pw' ++ salt') ++ salt'.
  Proof.
    intros H. apply (f_equal (skipn 6)) in H. rewrite !digest_body in H.
    pose proof (decode_encodebytes (sha (pw ++ salt) ++ salt)) as D. rewrite H, decode_encodebytes in D. congruence.
  Qed.

  Hypothesis sha_length : forall x, length (sha x) = 20%nat.

  Lemma accepts_digest pw new salt :
    accepts1 sha pw (PBytes (sshaDigest sha new salt)) = Ok (bytes_eqb (sha (pw ++ salt)) (sha (new ++ salt))).
  Proof.
    unfold accepts1. cbn [to_bytes bind]. rewrite digest_prefix, digest_body, decode_encodebytes. cbn [bind]. f_equal.
    replace (skipn 20 (sha (new ++ salt) ++ salt)) with salt
      by (rewrite skipn_app, sha_length, skipn_all2 by (rewrite sha_length; lia); reflexivity).
    destruct (bytes_eqb_spec (sha (pw ++ salt)) (sha (new ++ salt))) as [E|E];
      destruct (bytes_eqb_spec (sshaDigest sha pw salt) (sshaDigest sha new salt)) as [F|F]; try reflexivity.
    - exfalso. apply F. unfold sshaDigest. now rewrite E.
    - exfalso. apply E. apply digest_inj in F. now apply app_inv_tail in F.
  Qed.

  (** *** One stored value *)
  Lemma accepts_sound pw v : accepts1 sha pw v = Ok true -> exists s, to_bytes v = Ok s /\ admits sha s pw.
  Proof.
    unfold accepts1. destruct (to_bytes v) as [s|] eqn:T; [|discriminate]. cbn [bind]. intros H. exists s. split; [reflexivity|].
    destruct (starts_with (B "{SSHA}") s) eqn:P.
    - destruct (b64_decode (skipn 6 s)) as [raw|]; [|discriminate]. cbn [bind] in H. apply Ok_inj in H.
      apply bytes_eqb_eq in H. right. exists (skipn 20 raw). congruence.
    - apply Ok_inj in H. apply bytes_eqb_eq in H. left. split; [|exact H].
      intros (t & E). assert (starts_with (B "{SSHA}") s = true) by (apply starts_with_spec; now exists t). congruence.
  Qed.
  Lemma any_sound pw vs : any_accepts sha pw vs = Ok true -> exists v s, In v vs /\ to_bytes v = Ok s /\ admits sha s pw.
  Proof.
    induction vs as [|v vs IH]; cbn; [discriminate|].
    destruct (accepts1 sha pw v) as [[|]|] eqn:A; cbn [bind]; intros H; try discriminate.
    - destruct (accepts_sound _ _ A) as (s & T & D). exists v, s. auto.
    - destruct (IH H) as (v' & s & I & T & D). exists v', s. auto.
  Qed.
End Pw.

Section Keys.
  Variable lower : str -> str.

  Lemma dict_get_set_same k vs l : dict_get lower k (dict_set lower k vs l) = Some (mkSet k vs).
  Proof.
    assert (R : forall x, same_key lower k (mkSet k x) = true) by (intros; unfold same_key; apply pyval_eqb_refl).
    unfold dict_get. induction l as [|a l IH]; cbn; [now rewrite R|].
    destruct (same_key lower k a) eqn:S; cbn; [now rewrite R|]. now rewrite S.
  Qed.
  Lemma dict_get_set_other k k' vs l : lowv lower k <> lowv lower k' ->
    dict_get lower k (dict_set lower k' vs l) = dict_get lower k l.
  Proof.
    intros N. unfold dict_get. induction l as [|a l IH]; cbn.
    - unfold same_key at 1. cbn. destruct (pyval_eqb_spec (lowv lower k) (lowv lower k')); [contradiction|reflexivity].
    - destruct (same_key_spec lower k' a) as [S|S]; cbn.
      + unfold same_key at 1. cbn. destruct (pyval_eqb_spec (lowv lower k) (lowv lower k')); [contradiction|].
        destruct (same_key_spec lower k a) as [S'|S']; [congruence|reflexivity].
      + now rewrite IH.
  Qed.

  Definition kS := PStr (S_ "userPassword").
  Definition kB := PBytes (B "userPassword").
  Lemma kS_kB : lowv lower kS <> lowv lower kB. Proof. discriminate. Qed.
  Lemma find_S e : find_key lower kS e = Ok (match dict_get lower kS (e_attrs e) with Some a => Some a | None => dict_get lower kB (e_attrs e) end).
  Proof.
    unfold find_key. replace (get_strings kS) with (Ok [kS; kB] : res (list pyval)) by (vm_compute; reflexivity).
    cbn [bind fold_right]. destruct (dict_get lower kS (e_attrs e)); [reflexivity|]. destruct (dict_get lower kB (e_attrs e)); reflexivity.
  Qed.
  Lemma find_B e : find_key lower kB e = Ok (match dict_get lower kB (e_attrs e) with Some a => Some a | None => dict_get lower kS (e_attrs e) end).
  Proof.
    unfold find_key. replace (get_strings kB) with (Ok [kB; kS] : res (list pyval)) by (vm_compute; reflexivity).
    cbn [bind fold_right]. destruct (dict_get lower kB (e_attrs e)); [reflexivity|]. destruct (dict_get lower kS (e_attrs e)); reflexivity.
  Qed.

  (** Only the crypted password remains under either key. *)
  Definition only (c : bytes) (e : entry) : Prop :=
    dict_get lower kB (e_attrs e) = Some (mkSet kB [PBytes c]) /\
    (dict_get lower kS (e_attrs e) = None \/ dict_get lower kS (e_attrs e) = Some (mkSet kS [PBytes c])).

  Variable sha : bytes -> bytes.
  Variable str_first : bool.


  Lemma gs k v e : dict_get lower k (e_attrs (setitem lower k [v] e)) = Some (mkSet k [v]).
  Proof. exact (dict_get_set_same k [v] (e_attrs e)). Qed.
  Lemma go k k' vs e : lowv lower k <> lowv lower k' -> dict_get lower k (e_attrs (setitem lower k' vs e)) = dict_get lower k (e_attrs e).
  Proof. exact (dict_get_set_other k k' (set_of vs) (e_attrs e)). Qed.

  Lemma set_password_spec new salt e : exists e', setPassword sha lower str_first new salt e = Ok e' /\ only (sshaDigest sha new salt) e' /\
    e_dn e' = e_dn e /\
    forall k, lowv lower k <> lowv lower kS -> lowv lower k <> lowv lower kB -> dict_get lower k (e_attrs e') = dict_get lower k (e_attrs e).
  Proof.
    unfold setPassword. generalize (sshaDigest sha new salt) as c. intros c.
    assert (BS : lowv lower kB <> lowv lower kS) by discriminate. pose proof kS_kB as SB.
    Local Ltac fin := eexists; (split; [reflexivity|]);
      (split; [split; [apply gs|
         first [right; rewrite ?go by discriminate; apply gs | left; rewrite ?go by discriminate; assumption]]|
       split; [reflexivity|intros k N1 N2; rewrite ?go by assumption; reflexivity]]).
    unfold pw_keys. change (PStr (S_ "userPassword")) with kS. change (PBytes (B "userPassword")) with kB.
    destruct str_first; cbn [set_keys]; change (PBytes (B "userPassword")) with kB; unfold has_key.
    - rewrite find_S. cbn [bind]. rewrite find_B.
      destruct (dict_get lower kS (e_attrs e)) as [a|] eqn:GS; [|destruct (dict_get lower kB (e_attrs e)) as [a|] eqn:GB]; cbn [bind].
      + rewrite go by exact BS. destruct (dict_get lower kB (e_attrs e)); [|rewrite gs]; fin.
      + rewrite go by exact BS. rewrite GB. fin.
      + rewrite GB, GS. fin.
    - rewrite find_B. cbn [bind]. rewrite find_S.
      destruct (dict_get lower kB (e_attrs e)) as [a|] eqn:GB; [|destruct (dict_get lower kS (e_attrs e)) as [a|] eqn:GS]; cbn [bind].
      + rewrite go by exact SB. destruct (dict_get lower kS (e_attrs e)) eqn:GS; [|rewrite gs]; fin.
      + rewrite go by exact SB. rewrite GS. fin.
      + rewrite GS, GB. fin.
  Qed.

  Lemma bind_only c e pw b : only c e -> accepts1 sha pw (PBytes c) = Ok b ->
    entry_bind sha lower str_first pw e = if b then Ok tt else Err EInvalidCredentials.
  Proof.
    intros (GB & GS) A.
    assert (VS : get_values lower kS e = Ok [PBytes c]).
    { unfold get_values. rewrite find_S, GB. destruct GS as [-> | ->]; reflexivity. }
    assert (VB : get_values lower kB e = Ok [PBytes c]).
    { unfold get_values. rewrite find_B, GB. reflexivity. }
    assert (AA : any_accepts sha pw [PBytes c] = Ok b).
    { cbn [any_accepts]. rewrite A. cbn [bind]. now destruct b. }
    unfold entry_bind, pw_keys. fold kS kB.
    destruct str_first; cbn [bind_keys]; rewrite VS, VB; cbn [bind]; rewrite AA; cbn [bind]; destruct b; reflexivity.
  Qed.

  (** *** Binding to an entry *)
  Lemma bind_keys_sound pw ks e : (forall k, In k ks -> k = kS \/ k = kB) -> bind_keys sha lower pw ks e = Ok true -> entry_admits sha lower e pw.
  Proof.
    induction ks as [|k ks IH]; cbn [bind_keys]; intros K H; [discriminate|].
    destruct (get_values lower k e) as [vs|] eqn:V; [|discriminate]. cbn [bind] in H.
    destruct (any_accepts sha pw vs) as [[|]|] eqn:A; cbn [bind] in H; try discriminate.
    - destruct (any_sound _ _ _ A) as (v & s & I & T & D).
      assert (exists a, In a (e_attrs e) /\ is_password lower a /\ s_vals a = vs).
      { assert (forall a k0, (k0 = kS \/ k0 = kB) -> dict_get lower k0 (e_attrs e) = Some a -> In a (e_attrs e) /\ is_password lower a).
        { intros a k0 K0 G. apply dict_get_some in G. destruct G as (Ia & La). split; [exact Ia|]. unfold is_password.
          destruct K0 as [-> | ->]; destruct (s_key a); cbn in La; try discriminate; injection La as La; assumption. }
        unfold get_values in V. destruct (K k (or_introl eq_refl)) as [-> | ->]; rewrite ?find_S, ?find_B in V; cbn [bind] in V; apply Ok_inj in V.
        - destruct (dict_get lower kS (e_attrs e)) as [a|] eqn:G; [|destruct (dict_get lower kB (e_attrs e)) as [a|] eqn:G'].
          + exists a. destruct (H0 a kS (or_introl eq_refl) G). auto.
          + exists a. destruct (H0 a kB (or_intror eq_refl) G'). auto.
          + rewrite <- V in I. contradiction.
        - destruct (dict_get lower kB (e_attrs e)) as [a|] eqn:G; [|destruct (dict_get lower kS (e_attrs e)) as [a|] eqn:G'].
          + exists a. destruct (H0 a kB (or_intror eq_refl) G). auto.
          + exists a. destruct (H0 a kS (or_introl eq_refl) G'). auto.
          + rewrite <- V in I. contradiction. }
      destruct H0 as (a & Ia & Pa & Va). exists a, v, s. rewrite Va. auto 6.
    - apply IH; [intros; apply K; now right|exact H].
  Qed.
  Lemma bind_sound pw e : entry_bind sha lower str_first pw e = Ok tt -> entry_admits sha lower e pw.
  Proof.
    unfold entry_bind. destruct (bind_keys sha lower pw (pw_keys str_first) e) as [[|]|] eqn:E; cbn [bind]; try discriminate. intros _.
    apply (bind_keys_sound pw (pw_keys str_first)); [|exact E].
    intros k I. unfold pw_keys in I. destruct str_first; destruct I as [<-|[<-|[]]]; auto.
  Qed.

  (** *** An admitted password binds *)
  Definition readable (v : pyval) : Prop :=
    exists s, to_bytes v = Ok s /\ (forall t, s = B "{SSHA}" ++ t -> exists raw, b64_decode t = Ok raw).
  Lemma accepts_ok pw v : readable v -> exists b, accepts1 sha pw v = Ok b.
  Proof.
    intros (s & T & D). unfold accepts1. rewrite T. cbn [bind]. destruct (starts_with (B "{SSHA}") s) eqn:P; [|eauto].
    apply starts_with_spec in P as (t & ->). destruct (D t eq_refl) as (raw & R).
    change (skipn 6 (B "{SSHA}" ++ t)) with t. rewrite R. cbn [bind]. eauto.
  Qed.
  Lemma any_ok pw vs : (forall v, In v vs -> readable v) -> exists b, any_accepts sha pw vs = Ok b.
  Proof.
    induction vs as [|v vs IH]; intros R; cbn; [eauto|]. destruct (accepts_ok pw v (R v (or_introl eq_refl))) as ([|] & ->); cbn [bind]; [eauto|].
    apply IH. intros; apply R; now right.
  Qed.
  Lemma is_password_key a : is_password lower a <-> lowv lower (s_key a) = lowv lower kS \/ lowv lower (s_key a) = lowv lower kB.
  Proof.
    unfold is_password. destruct (s_key a) as [s|b]; cbn; split; intros H.
    - left. now rewrite H.
    - destruct H as [H|H]; [congruence|discriminate].
    - right. rewrite H. reflexivity.
    - destruct H as [H|H]; [discriminate|]. injection H as H. exact H.
  Qed.
  (** A password that no stored value admits is refused. *)
  Lemma bind_refuses pw e : passwords_readable lower e -> ~ entry_admits sha lower e pw -> entry_bind sha lower str_first pw e = Err EInvalidCredentials.
  Proof.
    intros R A.
    assert (GV : forall k, k = kS \/ k = kB -> exists vs, get_values lower k e = Ok vs /\ (forall v, In v vs -> readable v)).
    { intros k K. assert (G : forall k x, k = kS \/ k = kB -> dict_get lower k (e_attrs e) = Some x -> forall v, In v (s_vals x) -> readable v).
      { intros k0 x K0 G v' J'. apply dict_get_some in G as (Ix & Lx). apply (R x v' Ix); [|exact J']. apply is_password_key. destruct K0 as [-> | ->]; auto. }
      unfold get_values. destruct K as [-> | ->]; rewrite ?find_S, ?find_B; cbn [bind]; eexists; (split; [reflexivity|]).
      - destruct (dict_get lower kS (e_attrs e)) as [x|] eqn:E; [apply (G kS x); auto|].
        destruct (dict_get lower kB (e_attrs e)) as [x|] eqn:E'; [apply (G kB x); auto|intros ? []].
      - destruct (dict_get lower kB (e_attrs e)) as [x|] eqn:E; [apply (G kB x); auto|].
        destruct (dict_get lower kS (e_attrs e)) as [x|] eqn:E'; [apply (G kS x); auto|intros ? []]. }
    assert (BK : forall ks, (forall k, In k ks -> k = kS \/ k = kB) -> exists b, bind_keys sha lower pw ks e = Ok b).
    { induction ks as [|k ks IH]; intros K; cbn [bind_keys]; [eauto|]. destruct (GV k (K k (or_introl eq_refl))) as (vs & -> & RV). cbn [bind].
      destruct (any_ok pw vs RV) as ([|] & ->); cbn [bind]; [eauto|]. apply IH. intros; apply K; now right. }
    assert (PK : forall k, In k (pw_keys str_first) -> k = kS \/ k = kB).
    { intros k I. unfold pw_keys in I. destruct str_first; destruct I as [<-|[<-|[]]]; auto. }
    destruct (BK _ PK) as ([|] & B); unfold entry_bind; rewrite B; [|reflexivity]. exfalso. apply A. exact (bind_keys_sound pw _ e PK B).
  Qed.
  Hypothesis sha_length : forall x, length (sha x) = 20%nat.
  Lemma accepts_complete pw v s : to_bytes v = Ok s -> admits sha s pw -> accepts1 sha pw v = Ok true.
  Proof.
    intros T [(N & ->)|(salt & ->)].
    - unfold accepts1. rewrite T. cbn [bind]. destruct (starts_with (B "{SSHA}") pw) eqn:P.
      + apply starts_with_spec in P. contradiction.
      + f_equal. now apply bytes_eqb_eq.
    - replace (accepts1 sha pw v) with (accepts1 sha pw (PBytes (sshaDigest sha pw salt))) by (unfold accepts1; now rewrite T).
      rewrite (accepts_digest sha sha_length). f_equal. now apply bytes_eqb_eq.
  Qed.
  Lemma any_complete pw vs v s : (forall v, In v vs -> readable v) -> In v vs -> to_bytes v = Ok s -> admits sha s pw -> any_accepts sha pw vs = Ok true.
  Proof.
    induction vs as [|x vs IH]; intros R I T A; [destruct I|]. cbn [any_accepts].
    destruct (accepts_ok pw x (R x (or_introl eq_refl))) as ([|] & E); rewrite E; cbn [bind]; [reflexivity|].
    destruct I as [->|I]; [rewrite (accepts_complete pw v s T A) in E; discriminate|]. apply IH; auto. intros; apply R; now right.
  Qed.
  Lemma dict_get_nodup e a k : keys_distinct lower e -> In a (e_attrs e) -> lowv lower (s_key a) = lowv lower k -> dict_get lower k (e_attrs e) = Some a.
  Proof.
    unfold keys_distinct, dict_get. induction (e_attrs e) as [|x l IH]; intros N I E; [destruct I|]. cbn [map] in N. apply NoDup_cons_iff in N as (N1 & N2).
    cbn [find]. destruct (same_key_spec lower k x) as [S|S].
    - destruct I as [->|I]; [reflexivity|]. exfalso. apply N1. apply in_map_iff. exists a. split; [congruence|exact I].
    - destruct I as [->|I]; [congruence|]. now apply IH.
  Qed.
  Lemma bind_complete pw e : keys_distinct lower e -> passwords_readable lower e -> entry_admits sha lower e pw ->
    entry_bind sha lower str_first pw e = Ok tt.
  Proof.
    intros N R (a & v & s & I & P & J & T & A).
    assert (G : forall k x, k = kS \/ k = kB -> dict_get lower k (e_attrs e) = Some x -> forall v, In v (s_vals x) -> readable v).
    { intros k x K G v' J'. apply dict_get_some in G as (Ix & Lx). apply (R x v' Ix); [|exact J']. apply is_password_key. destruct K as [-> | ->]; auto. }
    assert (GV : forall k, k = kS \/ k = kB -> exists vs, get_values lower k e = Ok vs /\ (forall v, In v vs -> readable v) /\
      (lowv lower (s_key a) = lowv lower k -> vs = s_vals a)).
    { intros k K. unfold get_values. destruct K as [-> | ->]; rewrite ?find_S, ?find_B; cbn [bind].
      - destruct (dict_get lower kS (e_attrs e)) as [x|] eqn:E; [|destruct (dict_get lower kB (e_attrs e)) as [x|] eqn:E'].
        + eexists; split; [reflexivity|]. split; [apply (G kS x); auto|]. intros L. rewrite (dict_get_nodup e a kS N I L) in E. congruence.
        + eexists; split; [reflexivity|]. split; [apply (G kB x); auto|]. intros L. rewrite (dict_get_nodup e a kS N I L) in E. congruence.
        + eexists; split; [reflexivity|]. split; [intros ? []|]. intros L. rewrite (dict_get_nodup e a kS N I L) in E. congruence.
      - destruct (dict_get lower kB (e_attrs e)) as [x|] eqn:E; [|destruct (dict_get lower kS (e_attrs e)) as [x|] eqn:E'].
        + eexists; split; [reflexivity|]. split; [apply (G kB x); auto|]. intros L. rewrite (dict_get_nodup e a kB N I L) in E. congruence.
        + eexists; split; [reflexivity|]. split; [apply (G kS x); auto|]. intros L. rewrite (dict_get_nodup e a kB N I L) in E. congruence.
        + eexists; split; [reflexivity|]. split; [intros ? []|]. intros L. rewrite (dict_get_nodup e a kB N I L) in E. congruence. }
    assert (forall ks, (forall k, In k ks -> k = kS \/ k = kB) -> (exists k, In k ks /\ lowv lower (s_key a) = lowv lower k) -> bind_keys sha lower pw ks e = Ok true) as BK.
    { induction ks as [|k ks IH]; intros K (k0 & I0 & L0); [destruct I0|]. cbn [bind_keys].
      destruct (GV k (K k (or_introl eq_refl))) as (vs & -> & RV & LV). cbn [bind].
      destruct (any_ok pw vs RV) as ([|] & E); rewrite E; cbn [bind]; [reflexivity|].
      destruct I0 as [->|I0].
      - rewrite (LV L0) in E, RV. rewrite (any_complete pw _ v s RV J T A) in E. discriminate.
      - apply IH; [intros; apply K; now right|eauto]. }
    unfold entry_bind. rewrite BK; [reflexivity| |].
    - intros k Ik. unfold pw_keys in Ik. destruct str_first; destruct Ik as [<-|[<-|[]]]; auto.
    - apply is_password_key in P. unfold pw_keys. fold kS kB. destruct str_first, P as [P|P]; eexists; (split; [|exact P]); cbn; auto.
  Qed.
End Keys.
