(** The server keeps the DNs of its directory encodable. *)
From Verif Require Import Base BaseFacts BerModel LdapModel LdapSpec Utf8Model Utf8Proofs DnModel EntryModel DeltaModel MatchModel
  UtilModel LdifModel PwModel PwSpec PwProofs InmemModel InmemProofs InmemMove ServerModel ServerSpec ServerProofs.

(** ** Text *)
Notation chars := (Forall (fun c => 0 <= c < 0x110000 /\ ~ (0xD800 <= c <= 0xDFFF))).
Definition rdn_chars (r : rdn) : Prop := Forall (fun a => chars (a_type a) /\ chars (a_value a)) r.
Definition dn_chars (d : dn) : Prop := Forall rdn_chars d.
Definition heap_chars (h : heap) : Prop := forall r n, nth_error h r = Some n -> dn_chars (n_dn n).

Lemma text_dns_chars h : text_dns h <-> heap_chars h.
Proof.
  split; intros H.
  - intros r n N. apply Forall_forall. intros rd R. apply Forall_forall. intros a A. exact (H r n rd a N R A).
  - intros r n rd a N R A. pose proof (proj1 (Forall_forall _ _) (H r n N) rd R) as Q. exact (proj1 (Forall_forall _ _) Q a A).
Qed.
Lemma join_chars sep l : chars sep -> Forall (fun x => chars x) l -> chars (join sep l).
Proof. intros S. induction 1 as [|x l X F IH]; [constructor|]. cbn [join]. destruct l; [exact X|]. apply Forall_app. split; [exact X|]. apply Forall_app. auto. Qed.
Lemma escape_char_chars c : 0 <= c < 0x110000 /\ ~ (0xD800 <= c <= 0xDFFF) -> chars (escape_char c).
Proof.
  intros V. unfold escape_char. assert (BS : 0 <= c_bs < 0x110000 /\ ~ (0xD800 <= c_bs <= 0xDFFF)) by (unfold c_bs; lia).
  destruct (zin c escapedChars); [auto|]. destruct (Z.leb_spec c 31); [|auto].
  assert (H1 : 0 <= c / 16 < 16) by (split; [apply Z.div_pos; lia|apply Z.div_lt_upper_bound; lia]). pose proof (Z.mod_pos_bound c 16).
  assert (U : forall d, 0 <= d < 16 -> 0 <= hex_upper d < 0x110000 /\ ~ (0xD800 <= hex_upper d <= 0xDFFF)) by (intros d D; unfold hex_upper; destruct (d <? 10); lia).
  constructor; [exact BS|]. constructor; [now apply U|]. constructor; [apply U; lia|constructor].
Qed.
Lemma escape_chars s : chars s -> chars (escape s).
Proof.
  intros V. unfold escape. assert (BS : 0 <= c_bs < 0x110000 /\ ~ (0xD800 <= c_bs <= 0xDFFF)) by (unfold c_bs; lia).
  assert (L : let '(r, s1) := escape_lead s in chars r /\ chars s1).
  { unfold escape_lead. destruct s as [|c s]; [auto|]. inversion V; subst. destruct (zin c escapedEnds); auto. }
  destruct (escape_lead s) as (r, s1). destruct L as (Lr & L1).
  assert (T : let '(s2, t) := escape_trail s1 in chars s2 /\ chars t).
  { unfold escape_trail. pose proof (Forall_rev L1) as R. destruct (rev s1) as [|c q] eqn:E; [auto|]. inversion R; subst. destruct (zin c escapedEnds); [|auto].
    split; [now apply Forall_rev|auto]. }
  destruct (escape_trail s1) as (s2, t). destruct T as (T2 & Tt). apply Forall_app. split; [exact Lr|]. apply Forall_app. split; [|exact Tt].
  clear - T2. induction T2 as [|c s H F IH]; [constructor|]. cbn [flat_map]. apply Forall_app. split; [now apply escape_char_chars|exact IH].
Qed.
Lemma rdn_text_chars r : rdn_chars r -> chars (rdn_text r).
Proof.
  intros V. unfold rdn_text. apply join_chars; [repeat constructor; unfold c_plus; lia|]. induction V as [|a r (A & A') F IH]; [constructor|]. cbn [map].
  constructor; [|exact IH]. unfold atv_text. apply join_chars; [repeat constructor; unfold c_eq; lia|]. constructor; [now apply escape_chars|].
  constructor; [now apply escape_chars|constructor].
Qed.
Lemma dn_text_chars d : dn_chars d -> chars (dn_text d).
Proof.
  intros V. unfold dn_text. apply join_chars; [repeat constructor; unfold c_comma; lia|]. induction V as [|r d A F IH]; [constructor|]. cbn [map].
  constructor; [now apply rdn_text_chars|exact IH].
Qed.
Lemma heap_chars_enc h : heap_chars h -> dns_encodable h.
Proof. intros H r n N. apply utf8_encode_total. apply dn_text_chars. exact (H r n N). Qed.

Section Parse.
  Variable io : Z -> Z -> res Z.
  Hypothesis io_ok : forall a b v, io a b = Ok v -> 0 <= v < 256.

  Lemma hexval_range c v : hexval c = Some v -> 0 <= v < 16.
  Proof.
    unfold hexval. destruct ((48 <=? c) && (c <=? 57)) eqn:A; [intros [= <-]; lia|]. destruct ((65 <=? c) && (c <=? 70)) eqn:A2; [intros [= <-]; lia|].
    destruct ((97 <=? c) && (c <=? 102)) eqn:A3; [intros [= <-]; lia|discriminate].
  Qed.
  Lemma unescape_chars : forall n s t, (length s <= n)%nat -> chars s -> unescape io s = Ok t -> chars t.
  Proof.
    induction n as [|n IH]; intros [|c s] t Ln V H; try (cbn in Ln; lia); try (apply Ok_inj in H; subst; constructor).
    inversion V as [|x y V1 V2]; subst. cbn [unescape] in H. cbn in Ln. destruct (c =? c_bs).
    - destruct s as [|d s]; [discriminate|]. inversion V2 as [|x y V3 V4]; subst. destruct (lower_hex d).
      + destruct s as [|e s].
        * unfold int16_1 in H. destruct (hexval d) as [v|] eqn:E; [|discriminate]. cbn [bind] in H. apply Ok_inj in H. subst t. pose proof (hexval_range _ _ E). constructor; [lia|constructor].
        * inversion V4 as [|x y V5 V6]; subst. rewrite bind_ok in H. destruct H as (v & E & H). rewrite bind_ok in H. destruct H as (u & U & H). apply Ok_inj in H. subst t.
          constructor; [|apply (IH s u); [cbn in Ln; lia|exact V6|exact U]].
          assert (0 <= v < 256) as ?; [|lia]. unfold int16 in E. destruct (hexval d) as [p|] eqn:D; [|discriminate]. pose proof (hexval_range _ _ D).
          destruct (hexval e) as [q|] eqn:D2; [pose proof (hexval_range _ _ D2); apply Ok_inj in E; lia|].
          destruct (((9 <=? e) && (e <=? 13)) || (e =? 32)); [apply Ok_inj in E; lia|]. destruct (e <? 128); [discriminate|]. exact (io_ok _ _ _ E).
      + rewrite bind_ok in H. destruct H as (u & U & H). apply Ok_inj in H. subst t. constructor; [exact V3|]. apply (IH s u); [cbn in Ln; lia|exact V4|exact U].
    - rewrite bind_ok in H. destruct H as (u & U & H). apply Ok_inj in H. subst t. constructor; [exact V1|]. apply (IH s u); [lia|exact V2|exact U].
  Qed.
  Lemma split_loop_chars sep : forall n s skip cur, (length s <= n)%nat -> chars s -> chars cur -> Forall (fun x => chars x) (split_loop sep skip cur s).
  Proof.
    induction n as [|n IH]; intros [|c s] skip cur Ln V C; try (cbn in Ln; lia); cbn [split_loop]; try (constructor; [exact C|constructor]).
    inversion V as [|x y V1 V2]; subst. cbn in Ln. destruct (skip && (c =? c_space)); [apply IH; [lia|assumption|assumption]|]. destruct (c =? c_bs).
    - destruct s as [|d s]; [constructor; [|constructor]; apply Forall_app; auto|]. inversion V2 as [|x y V3 V4]; subst. cbn in Ln. apply IH; [lia|exact V4|]. apply Forall_app. auto.
    - destruct (c =? sep); [constructor; [exact C|]; apply IH; [lia|exact V2|constructor]|]. apply IH; [lia|exact V2|]. apply Forall_app. auto.
  Qed.
  Lemma split_chars s sep : chars s -> Forall (fun x => chars x) (splitOnNotEscaped s sep).
  Proof. intros V. unfold splitOnNotEscaped. destruct s; [constructor|]. now apply (split_loop_chars sep (length (z :: s))). Qed.
  Lemma split_eq_chars s a b : chars s -> split_eq s = Some (a, b) -> chars a /\ chars b.
  Proof.
    intros V. revert a b. induction V as [|c s C V IH]; intros a b H; [discriminate|]. cbn [split_eq] in H. destruct (c =? c_eq); [injection H as <- <-; auto|].
    destruct (split_eq s) as [(p, q)|]; [|discriminate]. injection H as <- <-. destruct (IH p q eq_refl). auto.
  Qed.
  Lemma mapR_forall {A C} (f : A -> res C) (P : A -> Prop) (Q : C -> Prop) l : (forall x y, P x -> f x = Ok y -> Q y) -> Forall P l -> forall m, mapR f l = Ok m -> Forall Q m.
  Proof.
    intros S. induction 1 as [|x l X F IH]; intros m H; cbn [mapR] in H; [apply Ok_inj in H; subst; constructor|].
    rewrite bind_ok in H. destruct H as (y & Y & H). rewrite bind_ok in H. destruct H as (t & T & H). apply Ok_inj in H. subst m. constructor; eauto.
  Qed.
  Lemma parse_rdn_chars s r : chars s -> parse_rdn io s = Ok r -> rdn_chars r.
  Proof.
    intros V H. refine (mapR_forall _ (fun x => chars x) _ _ _ (split_chars s c_plus V) r H). intros x y X Y. rewrite bind_ok in Y. destruct Y as (u & U & Y).
    unfold parse_atv in Y. destruct (split_eq u) as [(a, b)|] eqn:E; [|discriminate]. apply Ok_inj in Y. subst y. cbn. apply (split_eq_chars u a b); [|exact E].
    now apply (unescape_chars (length x) x).
  Qed.
  Lemma parse_dn_chars s d : chars s -> parse_dn io s = Ok d -> dn_chars d.
  Proof. intros V H. refine (mapR_forall _ (fun x => chars x) _ _ _ (split_chars s c_comma V) d H). intros x y. apply parse_rdn_chars. Qed.
  Lemma decode_chars b s : utf8_decode b = Ok s -> chars s.
  Proof. intros H. apply (utf8_encode_valid s b). now apply utf8_decode_encode. Qed.
  Lemma to_dn_chars v d : to_dn io v = Ok d -> dn_chars d.
  Proof. destruct v as [| |b]; try discriminate. cbn [to_dn]. rewrite bind_ok. intros (s & S & H). apply (parse_dn_chars s); [now apply (decode_chars b)|exact H]. Qed.
End Parse.

(** ** The heap *)
Lemma chars_set h r n : heap_chars h -> dn_chars (n_dn n) -> heap_chars (set_nth r n h).
Proof. intros H D q m. rewrite nth_set_nth. destruct (Nat.eqb_spec r q) as [->|Q]; [|apply H]. destruct (nth_error h q); [intros [= <-]; exact D|discriminate]. Qed.
Lemma chars_app h n : heap_chars h -> dn_chars (n_dn n) -> heap_chars (h ++ [n]).
Proof.
  intros H D q m N. destruct (Nat.lt_ge_cases q (length h)) as [L|L]; [rewrite nth_error_app1 in N by exact L; exact (H q m N)|].
  rewrite nth_error_app2 in N by exact L. destruct (q - length h)%nat as [|[|]]; try discriminate. injection N as <-. exact D.
Qed.
Lemma chars_frame r h h' : frame r h h' -> heap_chars h -> heap_chars h'.
Proof.
  intros F H q m N. specialize (F q). destruct (nth_error h q) as [n|] eqn:E; [|congruence]. destruct F as (n' & N' & _ & _ & D & _).
  rewrite N' in N. injection N as <-. rewrite D. exact (H q n E).
Qed.
Lemma add_child_chars lower h p rd a h' c : heap_chars h -> rdn_chars rd -> add_child lower h p rd a = Ok (h', c) -> heap_chars h'.
Proof.
  intros H R E. unfold add_child, deref in E. destruct (nth_error h p) as [n|] eqn:N; [|discriminate]. cbn [bind] in E.
  destruct (key_get (rdn_text rd) (n_children n)); [discriminate|]. apply Ok_inj in E. injection E as <- _. apply chars_app.
  - apply chars_set; [exact H|exact (H p n N)].
  - constructor; [exact R|exact (H p n N)].
Qed.
Lemma delete_chars h r h' c : heap_chars h -> delete h r = Ok (h', c) -> heap_chars h'.
Proof.
  intros H E. unfold delete, deref in E. destruct (nth_error h r) as [n|] eqn:N; [|discriminate]. cbn [bind] in E. destruct (n_parent n) as [p|]; [|discriminate].
  destruct (n_children n); [|discriminate]. destruct (n_dn n) as [|rd d]; [discriminate|]. unfold delete_child, deref in E.
  destruct (nth_error h p) as [m|] eqn:M; [|discriminate]. cbn [bind] in E. destruct (key_get (rdn_text rd) (n_children m)); [|discriminate].
  apply Ok_inj in E. injection E as <- _. apply chars_set; [exact H|exact (H p m M)].
Qed.
Lemma rename_chars lower h r d h' o : heap_chars h -> dn_chars d -> rename lower h r d = (h', o) -> heap_chars h'.
Proof.
  intros H D E. unfold rename in E. destruct (nth_error h r) as [n|] eqn:N; [|injection E as <- _; exact H]. destruct (n_dn n) as [|od u]; [injection E as <- _; exact H|].
  destruct (each_av (remove_av lower) h r od) as (h1, o1) eqn:E1. pose proof (each_av_frame _ _ _ _ (remove_av_dn lower) _ _ E1) as F1. pose proof (chars_frame _ _ _ F1 H) as H1.
  destruct o1; [|injection E as <- _; exact H1]. destruct d as [|nd nu]; [injection E as <- _; exact H1|].
  destruct (each_av (add_av lower) h1 r nd) as (h2, o2) eqn:E2. pose proof (each_av_frame _ _ _ _ (add_av_dn lower) _ _ E2) as F2. pose proof (chars_frame _ _ _ F2 H1) as H2.
  destruct o2; [|injection E as <- _; exact H2].
  destruct (upd_entry h2 r (fun e => Ok (mkEntry (nd :: nu) (e_attrs e)))) as [h3|] eqn:U; injection E as <- _; [|exact H2].
  unfold upd_entry, deref in U. destruct (nth_error h2 r) as [m|]; [|discriminate]. cbn [bind] in U. apply Ok_inj in U. subst h3. apply chars_set; [exact H2|exact D].
Qed.
Lemma relink_chars h r np d h' o : heap_chars h -> relink h r np d = (h', o) -> heap_chars h'.
Proof.
  intros H E. unfold relink in E. destruct d as [|rd d]; [injection E as <- _; exact H|]. unfold deref at 1 in E. destruct (nth_error h np) as [m|] eqn:M; injection E as <- _; [|exact H].
  apply chars_set; [exact H|exact (H np m M)].
Qed.
Lemma unlink_chars h r : heap_chars h -> heap_chars (unlink h r).
Proof.
  intros H. unfold unlink. destruct (nth_error h r) as [n|]; [|exact H]. destruct (n_parent n) as [p|]; [|exact H]. destruct (n_dn n) as [|od u]; [exact H|].
  destruct (nth_error h p) as [q|] eqn:Q; [|exact H]. apply chars_set; [exact H|exact (H p q Q)].
Qed.
Lemma move_chars lower depth h r d h' o : heap_chars h -> dn_chars d -> move lower depth h r d = (h', o) -> heap_chars h'.
Proof.
  intros H D E. unfold move in E. destruct (deref h r) as [n|]; [|injection E as <- _; exact H].
  destruct (negb (dn_eqb lower (dn_up d) (dn_up (n_dn n)))); [|exact (rename_chars _ _ _ _ _ _ H D E)].
  match type of E with match ?x with _ => _ end = _ => destruct x as [np|] end; [|injection E as <- _; exact H].
  destruct (relink h r np d) as (h1, o1) eqn:R. pose proof (relink_chars _ _ _ _ _ _ H R) as H1. destruct o1; [|injection E as <- _; exact H1].
  exact (rename_chars _ _ _ _ _ _ (unlink_chars _ r H1) D E).
Qed.
Lemma patch1_dn lower m e : e_dn (fst (patch1 lower m e)) = e_dn e.
Proof.
  unfold patch1. destruct (d_kind m).
  - destruct (find_key lower (d_key m) e) as [[a|]|]; reflexivity.
  - destruct (d_vals m) as [|v vs].
    + unfold delitem. destruct (dict_get lower (d_key m) (e_attrs e)); reflexivity.
    + generalize (v :: vs). intros l. revert e. induction l as [|x l IH]; intros e; [reflexivity|]. cbn [remove_all].
      match goal with |- context [match ?t with Ok _ => _ | Err _ => _ end] => destruct t as [e'|] eqn:E end; [|reflexivity]. rewrite IH.
      rewrite bind_ok in E. destruct E as (a & _ & E). rewrite bind_ok in E. destruct E as (l' & _ & E). apply Ok_inj in E. now subst.
  - destruct (d_vals m); [|reflexivity]. unfold delitem. destruct (dict_get lower (d_key m) (e_attrs e)); reflexivity.
Qed.
Lemma patch_all_dn lower ms : forall e, e_dn (fst (patch_all lower ms e)) = e_dn e.
Proof.
  induction ms as [|m ms IH]; intros e; [reflexivity|]. cbn [patch_all]. pose proof (patch1_dn lower m e) as P. destruct (patch1 lower m e) as (e', [|]); [rewrite IH|]; exact P.
Qed.

Section Handle.
  Variable lower : str -> str.
  Variable io : Z -> Z -> res Z.
  Variable sha : bytes -> bytes.
  Variable oc_first pw_first : bool.
  Variable odd_match : obj -> entry -> res bool.
  Variable text : exn -> bytes.
  Variable depth : nat.
  Hypothesis io_ok : forall a b v, io a b = Ok v -> 0 <= v < 256.
  Notation handler := (handler lower io sha oc_first pw_first odd_match text depth).
  Notation handle := (handle lower io sha oc_first pw_first odd_match text depth).
  Notation serve := (serve lower io sha oc_first pw_first odd_match text depth).

  Definition hc (r : hres) : Prop := heap_chars (v_heap (fst (fst r))).
  Lemma hc_try {A} s (r : res A) k : heap_chars (v_heap s) -> (forall a, r = Ok a -> hc (k a)) -> hc (try text s r k).
  Proof. intros H K. unfold try. destruct r; [now apply K|exact H]. Qed.
  Lemma handler_chars s salt id req cs : heap_chars (v_heap s) -> hc (handler s salt id req cs).
  Proof.
    intros H. unfold ServerModel.handler. destruct req; try exact H; try (destruct k; exact H).
    - (* delete *) destruct k; try exact H. unfold handle_delete. apply hc_try; [exact H|intros _ _]. apply hc_try; [exact H|intros d D]. apply hc_try; [exact H|intros r R].
      destruct (delete (v_heap s) r) as [(h, c)|] eqn:E; [|exact H]. exact (delete_chars _ _ _ _ H E).
    - (* bind *) unfold handle_bind. destruct version as [|z|]; try exact H. destruct z as [|p|p]; try exact H. destruct p as [p|p|]; try exact H. destruct p as [p|p|]; try exact H.
      apply hc_try; [exact H|intros _ _].
      assert (Q : hc (try text s (to_dn io dn) (fun d => match lookup lower depth (v_heap s) (v_root s) d with
            | Err (ELdap 32) => raise text s EInvalidCredentials | Err x => raise text s x
            | Ok r => try text s (auth_bytes auth) (fun pw => try text s (entry_of s r) (fun e => try text s (entry_bind sha lower pw_first pw e) (fun _ =>
                give (set_bound s (Some r)) (res_obj KBindResp 0 (pv_text (dn_text (e_dn e))) (VBytes []))))) end))).
      { apply hc_try; [exact H|intros d D]. destruct (lookup lower depth (v_heap s) (v_root s) d) as [r|x].
        - apply hc_try; [exact H|intros pw _]. apply hc_try; [exact H|intros e _]. apply hc_try; [exact H|intros _ _]. exact H.
        - assert (hc (raise text s x)) as Q by exact H. assert (hc (raise text s EInvalidCredentials)) as Q' by exact H.
          destruct x as [ | | | | | | | | | | | |c| ]; try exact Q. destruct c as [|c|c]; try exact Q. repeat (destruct c as [c|c|]; try exact Q; try exact Q'). }
      destruct dn as [| |[|]]; try exact Q. exact H.
    - (* search *) unfold handle_search. apply hc_try; [exact H|intros _ _]. apply hc_try; [exact H|intros dse _]. destruct dse.
      + unfold handle_root_dse. apply hc_try; [exact H|intros e _]. apply hc_try; [exact H|intros ev _]. exact H.
      + apply hc_try; [exact H|intros d _]. destruct (lookup lower depth (v_heap s) (v_root s) d) as [r|]; [|exact H].
        destruct (walk lower oc_first odd_match depth id req attributes scope (v_heap s) r) as (w, [x|]); exact H.
    - (* modify *) unfold handle_modify. apply hc_try; [exact H|intros _ _]. apply hc_try; [exact H|intros (d, ms) _]. apply hc_try; [exact H|intros r _]. apply hc_try; [exact H|intros n N].
      pose proof (patch_all_dn lower ms (n_entry n)) as P. destruct (patch_all lower ms (n_entry n)) as (e, o). cbn [fst] in P.
      assert (heap_chars (set_nth r (set_entry n e) (v_heap s))) as Q.
      { apply chars_set; [exact H|]. unfold n_dn. cbn [n_entry set_entry]. rewrite P. apply (H r n). now apply deref_ok. }
      destruct o; exact Q.
    - (* add *) unfold handle_add. apply hc_try; [exact H|intros _ _]. apply hc_try; [exact H|intros a _]. apply hc_try; [exact H|intros d D].
      pose proof (to_dn_chars io io_ok _ _ D) as V. destruct d as [|rd up]; [exact H|]. inversion V as [|x y V1 V2]; subst. apply hc_try; [exact H|intros p _].
      apply hc_try; [exact H|intros rd' R]. apply hc_try; [exact H|intros (h, c) E]. unfold hc. cbn.
      refine (add_child_chars _ _ _ _ _ _ _ H _ E). apply (parse_rdn_chars io io_ok (rdn_text rd)); [now apply rdn_text_chars|exact R].
    - (* modify DN *) unfold handle_modify_dn. apply hc_try; [exact H|intros _ _]. apply hc_try; [exact H|intros d D]. apply hc_try; [exact H|intros nrd NR].
      destruct (negb (truthy deleteoldrdn)); [exact H|]. apply hc_try; [exact H|intros sup SU]. apply hc_try; [exact H|intros r _].
      assert (dn_chars (nrd :: sup)) as V.
      { constructor.
        - destruct newrdn as [| |b]; try discriminate. rewrite bind_ok in NR. destruct NR as (t & T & NR). apply (parse_rdn_chars io io_ok t); [now apply (decode_chars b)|exact NR].
        - pose proof (to_dn_chars io io_ok _ _ D) as V. destruct newSuperior as [|z|b]; [|discriminate|exact (to_dn_chars io io_ok _ _ SU)].
          apply Ok_inj in SU. subst sup. unfold dn_up. destruct d; [exact V|now inversion V]. }
      destruct (move lower depth (v_heap s) r (nrd :: sup)) as (h, o) eqn:M. pose proof (move_chars _ _ _ _ _ _ _ H V M) as Q. destruct o; exact Q.
    - (* compare *) unfold handle_compare. apply hc_try; [exact H|intros _ _]. apply hc_try; [exact H|intros d _].
      match goal with |- hc (match ?t with Ok _ => _ | Err _ => _ end) => destruct t end; exact H.
    - (* extended *)
      destruct (extended_spec lower io sha pw_first odd_match text s salt requestName requestValue cs (heap_chars_enc _ H)) as [(r & n & me & new & e' & -> & BD & D & ME & A & SP & E)|(out & code & m & nm & E & _)].
      + unfold hc. rewrite E. cbn [fst v_heap set_heap]. apply chars_set; [exact H|]. unfold n_dn. cbn.
        destruct (set_password_spec lower sha pw_first new salt (n_entry n)) as (e2 & SP2 & _ & DN & _). rewrite SP in SP2. apply Ok_inj in SP2. subst e2. rewrite DN. exact (H r n D).
      + unfold hc. rewrite E. exact H.
  Qed.
  Lemma handle_chars s salt m s' w : heap_chars (v_heap s) -> handle s salt m = Ok (s', w) -> heap_chars (v_heap s').
  Proof.
    intros H E. unfold ServerModel.handle in E. destruct m as [| | | | | | | | |tag id op controls| | | | | | | | | | | |]; try discriminate. destruct (kind_of op); [|discriminate].
    pose proof (handler_chars s salt id op controls H) as Q. unfold hc in Q.
    assert (R : match handler s salt id op controls with (s', w, Return o) => Ok (s', w ++ final id o) | (s', w, Raise x msg) => Ok (s', w ++ final id (Some (on_error r x msg))) end = Ok (s', w) -> heap_chars (v_heap s')).
    { intros R. destruct (handler s salt id op controls) as ((s2, w2), [o|x msg]); apply Ok_inj in R; injection R as <- _; exact Q. }
    destruct id as [|z|]; try exact (R E). destruct z; try exact (R E). apply Ok_inj in E. injection E as <- _. exact H.
  Qed.
  Lemma serve_chars ms : forall s s' w x, heap_chars (v_heap s) -> serve s ms = (s', w, x) -> heap_chars (v_heap s').
  Proof.
    induction ms as [|(m, salt) ms IH]; intros s s' w x H E; cbn [ServerModel.serve] in E; [injection E as <- _ _; exact H|].
    destruct (handle s salt m) as [(s1, w1)|] eqn:G; [|injection E as <- _ _; exact H]. pose proof (handle_chars _ _ _ _ _ H G) as H1.
    destruct (serve s1 ms) as ((s2, w2), x2) eqn:E2. injection E as <- _ _. exact (IH _ _ _ _ H1 E2).
  Qed.
End Handle.
