(** Proofs about the receive loops: C06, C07, C08. *)
From Verif Require Import BaseFacts BerModel BerSpec BerProofs LdapModel LdapSpec LdapProofs
  StreamModel StreamSpec.

(** What a complete message element's content is decoded to. *)
Definition body (c : bytes) : res obj := fromBER (S (length c)) KMessage 0x10 c ctx_message.

Lemma header_len m i c n : berHeader m = Ok (i, c, n) -> (length c < length m)%nat.
Proof.
  intros H. apply berHeader_bounds in H as (A & _ & B & _). unfold zlen in *. lia.
Qed.

Lemma decode_head m i c n :
  berHeader m = Ok (i, c, n) ->
  decode ctx_top m = if i =? 0x10 then (do r <- body c; Ok (Some r, n)) else Ok (None, n).
Proof.
  intros H. unfold decode, berDecodeObject. destruct m as [|b m].
  { apply berHeader_bounds in H as (A & _). rewrite zlen_nil in A. lia. }
  pose proof (header_len _ _ _ _ H) as L. rewrite H. cbn [bind lookup_id ctx_top identities assocz class_tag].
  rewrite (Z.eqb_sym i 16). destruct (16 =? i) eqn:E.
  - apply Z.eqb_eq in E. subst i. unfold body. cbn [inherit].
    rewrite (fromBER_fuel (S (length (b :: m))) (S (length c))); [reflexivity|lia|lia].
  - reflexivity.
Qed.

Lemma decode_short m : (forall x, berHeader m <> Ok x) -> m <> [] -> decode ctx_top m = Err EInsufficient.
Proof.
  intros H N. unfold decode, berDecodeObject. destruct m as [|b m]; [congruence|].
  destruct (berHeader (b :: m)) as [x|e] eqn:E; [exfalso; exact (H _ eq_refl)|].
  apply berHeader_err in E. subst. reflexivity.
Qed.

Lemma zdrop_ext n (m x : bytes) : 0 <= n <= zlen m -> zdrop n (m ++ x) = zdrop n m ++ x.
Proof. intros H. unfold zdrop, zlen in *. rewrite skipn_app. replace (Z.to_nat n - length m)%nat with O by lia. reflexivity. Qed.

Lemma zdrop_len n (m : bytes) : 2 <= n -> m <> [] -> (length (zdrop n m) < length m)%nat.
Proof. intros H N. unfold zdrop. rewrite skipn_length. destruct m; [congruence|cbn [length]]. lia. Qed.

Lemma header_split m i c n :
  berHeader m = Ok (i, c, n) -> m = ztake n m ++ zdrop n m /\ element i (ztake n m).
Proof.
  intros H. pose proof (berHeader_bounds _ _ _ _ H) as (A & _ & _ & _).
  split; [unfold ztake, zdrop; now rewrite firstn_skipn|].
  assert (Hl : zlen (ztake n m) = n) by (unfold ztake, zlen in *; rewrite firstn_length; lia).
  exists c. rewrite Hl.
  destruct (berHeader (ztake n m)) as [[[j c'] n']|e] eqn:E.
  - pose proof (berHeader_ext _ (zdrop n m) _ _ _ E) as X.
    assert (Hm : ztake n m ++ zdrop n m = m) by (unfold ztake, zdrop; now rewrite firstn_skipn).
    rewrite Hm, H in X. now rewrite X.
  - exfalso. revert E H Hl A. rewrite !berHeader_eq. clear.
    destruct m as [|b0 [|b1 r]]; cbn [header_of]; try congruence. cbn zeta.
    intros E H Hl A. unfold ztake in Hl. unfold ztake at 1 in E.
    assert (exists k, Z.to_nat n = S (S k)) as (k & K) by (exists (Z.to_nat (n - 2)); lia).
    rewrite K in E. cbn [firstn header_of] in E. cbn zeta in E.
    assert (Hk : zlen (firstn k r) = n - 2).
    { rewrite K in Hl. cbn [firstn] in Hl. rewrite !zlen_cons in Hl. lia. }
    rewrite Hk in E. pose proof (b2z_range b1) as Rb. clear Hl A.
    destruct (Z.ltb_spec (b2z b1) 128).
    + destruct (Z.ltb_spec (zlen r) (b2z b1)); [congruence|].
      apply Ok_inj in H. assert (n = 2 + b2z b1) by congruence.
      destruct (Z.ltb_spec (n - 2) (b2z b1)); [lia|congruence].
    + set (l := b2z b1 - 128) in *.
      destruct (Z.ltb_spec (zlen r) l); [congruence|].
      destruct (Z.eqb_spec l 0); [congruence|].
      destruct (Z.ltb_spec (zlen r) (l + unsigned_value (ztake l r))); [congruence|].
      apply Ok_inj in H. assert (n = 2 + l + unsigned_value (ztake l r)) as Hn by congruence.
      pose proof (unsigned_value_range (ztake l r)).
      destruct (Z.ltb_spec (n - 2) l); [lia|].
      assert (Ht : ztake l (firstn k r) = ztake l r).
      { unfold ztake. rewrite firstn_firstn. f_equal. lia. }
      rewrite Ht in E.
      destruct (Z.ltb_spec (n - 2) (l + unsigned_value (ztake l r))); [lia|congruence].
Qed.

Section Facts.
  Variable check : obj -> res bool.
  Variable handle : obj -> res unit.
  Notation loop := (recv_loop check handle).
  Notation run m := (loop (S (length m%list)) m%list).

  Lemma loop_fuel f f' m : (length m < f)%nat -> (length m < f')%nat -> loop f m = loop f' m.
  Proof.
    revert f' m. induction f as [|f IH]; intros f' m L L'; [lia|]. destruct f' as [|f']; [lia|].
    cbn [recv_loop]. destruct m as [|b m]; [reflexivity|].
    destruct (decode ctx_top (b :: m)) as [[o n]|e] eqn:E; [|reflexivity].
    destruct o as [o|]; [|reflexivity].
    unfold decode in E. apply dec_bounds in E; [|congruence].
    assert (LZ : (length (zdrop n (b :: m)) < length (b :: m))%nat) by (apply zdrop_len; [lia|congruence]).
    rewrite (IH f'); [reflexivity|lia|lia].
  Qed.

  (** One step of the loop, by the header of the buffer. *)
  Lemma run_nil : run (@nil byte) = ([], Waiting []).
  Proof. reflexivity. Qed.

  Lemma run_short m : (forall x, berHeader m <> Ok x) -> run m = ([], Waiting m).
  Proof.
    intros H. destruct m as [|b m]; [reflexivity|].
    cbn [recv_loop]. rewrite decode_short by (assumption || congruence). reflexivity.
  Qed.

  Lemma run_head m i c n :
    berHeader m = Ok (i, c, n) ->
    run m =
      if i =? 0x10 then
        match body c with
        | Err EInsufficient => ([], Waiting m)
        | Err e => ([], Stopped e)
        | Ok o =>
            match check o with
            | Err e => ([], Stopped e)
            | Ok false => ([], Waiting (zdrop n m))
            | Ok true =>
                match handle o with
                | Err e => ([o], Stopped e)
                | Ok _ => let (l, s) := run (zdrop n m) in (o :: l, s)
                end
            end
        end
      else ([], Waiting (zdrop n m)).
  Proof.
    intros H. pose proof (berHeader_bounds _ _ _ _ H) as (A & _).
    assert (m <> []) as N by (intros ->; rewrite zlen_nil in A; lia).
    cbn [recv_loop]. rewrite (decode_head _ _ _ _ H).
    destruct (i =? 16); [|reflexivity].
    destruct (body c) as [o|e]; cbn [bind]; [|reflexivity].
    destruct (check o) as [[]|e]; [|reflexivity|reflexivity].
    destruct (handle o) as [u|e]; [|reflexivity].
    pose proof (zdrop_len n m ltac:(lia) N).
    rewrite (loop_fuel (length m) (S (length (zdrop n m)))); [reflexivity|lia|lia].
  Qed.

  (** The decoder's truth test never stops the loop: all objects are true. *)
  Hypothesis check_true : forall o, check o <> Ok false.

  Lemma only_messages_step w i m :
    element i w -> only_messages (w ++ m) -> only_messages m.
  Proof.
    intros E O els v rest j F V ->. apply (O (w :: els) v rest j); auto.
    - constructor; eauto.
    - cbn [concat]. now rewrite <- !app_assoc.
  Qed.

  Lemma only_messages_head m i c n x :
    berHeader m = Ok (i, c, n) -> only_messages (m ++ x) -> i = 16.
  Proof.
    intros H O. destruct (header_split _ _ _ _ H) as (S & E).
    apply (O [] (ztake n m) (zdrop n m ++ x) i); [constructor|exact E|].
    cbn [concat app]. rewrite app_assoc. now rewrite <- S.
  Qed.

  Lemma only_messages_rest m i c n x :
    berHeader m = Ok (i, c, n) -> only_messages (m ++ x) -> only_messages (zdrop n m ++ x).
  Proof.
    intros H O. destruct (header_split _ _ _ _ H) as (S & E).
    apply (only_messages_step (ztake n m) i); [exact E|].
    rewrite app_assoc. now rewrite <- S.
  Qed.

  (** Running on a buffer and then on what arrives later is running on both at once. *)
  Lemma run_app m x :
    only_messages (m ++ x) ->
    match run m with
    | (l, Stopped e) => run (m ++ x) = (l, Stopped e)
    | (l, Waiting b) =>
        run b = ([], Waiting b) /\ only_messages (b ++ x) /\
        run (m ++ x) = let (l', s) := run (b ++ x) in (l ++ l', s)
    end.
  Proof.
    remember (length m) as k eqn:K. revert m K.
    induction k as [k IH] using lt_wf_ind. intros m -> O.
    destruct (berHeader m) as [[[i c] n]|e] eqn:H.
    2:{ assert (R : run m = ([], Waiting m)) by (apply run_short; congruence).
        rewrite R. split; [exact R|]. split; [exact O|].
        now destruct (run (m ++ x)). }
    pose proof (only_messages_head _ _ _ _ _ H O) as Hi. subst i.
    pose proof (berHeader_bounds _ _ _ _ H) as (A & _).
    assert (m <> []) as N by (intros ->; rewrite zlen_nil in A; lia).
    pose proof (run_head _ _ _ _ H) as R.
    pose proof (run_head _ _ _ _ (berHeader_ext _ x _ _ _ H)) as R2.
    rewrite zdrop_ext in R2 by lia. rewrite Z.eqb_refl in R, R2.
    destruct (body c) as [o|e] eqn:B.
    - destruct (check o) as [[]|e] eqn:C; [|exfalso; eapply check_true; eauto|].
      + destruct (handle o) as [u|e] eqn:Hd.
        * pose proof (only_messages_rest _ _ _ _ _ H O) as O2.
          pose proof (IH _ (zdrop_len n m ltac:(lia) N) (zdrop n m) eq_refl O2) as I.
          rewrite R, R2. destruct (run (zdrop n m)) as [l [b|e]].
          -- destruct I as (I1 & I2 & I3). split; [exact I1|]. split; [exact I2|].
             rewrite I3. now destruct (run (b ++ x)).
          -- now rewrite I.
        * now rewrite R.
      + now rewrite R.
    - destruct e; try (now rewrite R).
      rewrite R. split; [exact R|]. split; [exact O|]. now destruct (run (m ++ x)).
  Qed.

  Lemma receive_stopped e segs : receive check handle (Stopped e) segs = ([], Stopped e).
  Proof. induction segs as [|s r IH]; [reflexivity|]. cbn [receive dataReceived]. now rewrite IH. Qed.

  Lemma receive_run b segs :
    run b = ([], Waiting b) -> only_messages (b ++ concat segs) ->
    receive check handle (Waiting b) segs = run (b ++ concat segs).
  Proof.
    revert b. induction segs as [|s r IH]; intros b Hb O.
    - cbn [concat receive]. now rewrite app_nil_r, Hb.
    - cbn [concat receive dataReceived] in *. rewrite app_assoc in *.
      pose proof (run_app _ _ O) as R.
      destruct (run (b ++ s)) as [l [b'|e]].
      + destruct R as (R1 & R2 & R3). rewrite (IH _ R1 R2), R3. now destruct (run (b' ++ concat r)).
      + rewrite receive_stopped, R, app_nil_r. reflexivity.
  Qed.

  Lemma receive_concat segs :
    only_messages (concat segs) ->
    receive check handle (Waiting []) segs = dataReceived check handle (Waiting []) (concat segs).
  Proof. intros O. apply (receive_run [] segs); auto. Qed.
End Facts.

Lemma server_check_true o : server_check o <> Ok false.
Proof. discriminate. Qed.

Lemma client_check_true o : client_check o <> Ok false.
Proof.
  unfold client_check. destruct (toWire o) as [w|e] eqn:W; cbn [bind]; [|congruence].
  apply toWire_tlv in W as (i & c & _ & T). apply tlv_length in T. destruct w; [cbn in T; lia|congruence].
Qed.

(** ** Streams of encoded messages (C08) *)

Lemma element_reads w o : reads ctx_top w o -> element 0x10 w.
Proof.
  intros (ident & content & k & Hi & T & L & _). exists content.
  pose proof (berHeader_tlv ident content w [] Hi T) as H. rewrite app_nil_r in H. rewrite H.
  change (Z.land ident (Z.lor CLASS_MASK TAG_MASK)) with (mask ident).
  cbn [lookup_id ctx_top identities assocz class_tag] in L. destruct (Z.eqb_spec (mask ident) 16) as [E|E]; [now rewrite E|congruence].
Qed.

Lemma element_inj i j e w x y :
  element i e -> element j w -> e ++ x = w ++ y -> i = j /\ e = w /\ x = y.
Proof.
  intros (c & E) (d & W) X.
  apply (berHeader_ext _ x) in E. apply (berHeader_ext _ y) in W. rewrite X, W in E.
  apply Ok_inj in E. assert (i = j /\ zlen e = zlen w) as (-> & L) by (split; congruence).
  split; [reflexivity|].
  assert (e = w) as ->.
  { apply (f_equal (firstn (length e))) in X. rewrite firstn_app, Nat.sub_diag, firstn_all in X.
    cbn [firstn] in X. rewrite app_nil_r in X.
    replace (length e) with (length w) in X by (unfold zlen in L; lia).
    rewrite firstn_app, Nat.sub_diag, firstn_all in X. cbn [firstn] in X.
    now rewrite app_nil_r in X. }
  split; [reflexivity|]. now apply app_inv_head in X.
Qed.

Lemma element_nonempty i w : element i w -> w <> [].
Proof. intros (c & E) ->. apply berHeader_bounds in E as (A & _). rewrite zlen_nil in A. lia. Qed.

Lemma only_messages_concat ws : Forall (element 0x10) ws -> only_messages (concat ws).
Proof.
  intros F els. revert ws F. induction els as [|e els IH]; intros ws F w rest i Fe Ew X; cbn [concat app] in X.
  - destruct F as [|w0 ws E0 F].
    + cbn in X. symmetry in X. apply app_eq_nil in X as (-> & _). now apply element_nonempty in Ew.
    + cbn [concat] in X. symmetry in X. now apply (element_inj _ _ _ _ _ _ Ew E0) in X.
  - pose proof (Forall_inv Fe) as (j & Ej). pose proof (Forall_inv_tail Fe) as Fe'.
    destruct F as [|w0 ws E0 F].
    + cbn in X. rewrite <- app_assoc in X. symmetry in X. apply app_eq_nil in X as (-> & _).
      now apply element_nonempty in Ej.
    + cbn [concat] in X. rewrite <- app_assoc in X.
      pose proof (element_inj _ _ _ _ _ _ E0 Ej X) as (_ & _ & X2).
      eapply IH; eauto.
Qed.

Section Messages.
  Variable check : obj -> res bool.
  Variable handle : obj -> res unit.
  Hypothesis check_true : forall o, check o <> Ok false.
  Hypothesis handle_ok : forall o, handle o = Ok tt.
  Notation run m := (recv_loop check handle (S (length m%list)) m%list).

  Lemma run_reads w o rest :
    reads ctx_top w o -> check o = Ok true ->
    run (w ++ rest) = let (l, s) := run rest in (o :: l, s).
  Proof.
    intros R C. pose proof (element_reads _ _ R) as (c & H).
    pose proof (reads_decode _ _ _ rest R) as D.
    pose proof (berHeader_ext _ rest _ _ _ H) as H2.
    rewrite (decode_head _ _ _ _ H2), Z.eqb_refl in D.
    rewrite (run_head _ _ _ _ _ _ H2), Z.eqb_refl.
    destruct (body c) as [o'|e]; cbn [bind] in D; [|discriminate].
    apply Ok_inj in D. assert (o' = o) as -> by congruence.
    rewrite C, handle_ok. rewrite zdrop_app. reflexivity.
  Qed.

  Lemma run_messages ws os :
    Forall2 (reads ctx_top) ws os -> Forall (fun o => check o = Ok true) os ->
    run (concat ws) = (os, Waiting []).
  Proof.
    intros F. induction F as [|w o ws os R F IH]; intros C; [reflexivity|].
    inversion C; subst. cbn [concat]. rewrite run_reads with (o := o) by assumption.
    now rewrite IH.
  Qed.

  Lemma receive_messages ws os segs :
    Forall2 (reads ctx_top) ws os -> Forall (fun o => check o = Ok true) os ->
    concat segs = concat ws ->
    receive check handle (Waiting []) segs = (os, Waiting []).
  Proof.
    intros F C E. rewrite receive_concat; [|exact check_true|].
    - cbn [dataReceived app]. rewrite E. now apply run_messages.
    - rewrite E. apply only_messages_concat. clear -F. induction F; constructor; eauto using element_reads.
  Qed.
End Messages.

Lemma client_check_ok o w : toWire o = Ok w -> client_check o = Ok true.
Proof.
  intros W. pose proof (client_check_true o) as N. unfold client_check in *. rewrite W in *.
  cbn [bind] in *. destruct w; congruence.
Qed.

(** Messages, their encodings, and the objects they are read as. *)
Lemma requests_reads (ms : list (Z * request * option (list control))) ws :
  Forall2 (fun '(i, r, cs) w => toWire (message_obj i (request_obj r) cs) = Ok w) ms ws ->
  exists os, Forall2 (reads ctx_top) ws os /\ requests_read os = map (fun '(i, r, cs) => Some (i, seen_request r, cs)) ms.
Proof.
  intros F. induction F as [|[[i r] cs] w ms ws W F (os & R & Q)].
  - exists []. split; [constructor|reflexivity].
  - destruct (request_message_seen i r cs w W) as (o & A & B & _).
    exists (o :: os). split; [now constructor|]. unfold requests_read in *. cbn [map].
    now rewrite B, Q.
Qed.

Lemma responses_reads (ms : list (Z * response * option (list control))) ws :
  Forall2 (fun '(i, r, cs) w => toWire (message_obj i (response_obj r) cs) = Ok w) ms ws ->
  exists os, Forall2 (reads ctx_top) ws os /\ responses_read os = map (fun '(i, r, cs) => Some (i, seen_response r, cs)) ms /\
             Forall (fun o => client_check o = Ok true) os.
Proof.
  intros F. induction F as [|[[i r] cs] w ms ws W F (os & R & Q & C)].
  - exists []. split; [constructor|]. split; [reflexivity|constructor].
  - destruct (response_message_seen i r cs w W) as (o & A & B & D).
    exists (o :: os). split; [now constructor|]. unfold responses_read in *. cbn [map].
    split; [now rewrite B, Q|]. constructor; [|exact C]. eapply client_check_ok; eauto.
Qed.

Lemma server_receives handle ms ws segs :
  (forall o, handle o = Ok tt) ->
  Forall2 (fun '(i, r, cs) w => toWire (message_obj i (request_obj r) cs) = Ok w) ms ws ->
  concat segs = concat ws ->
  exists os, receive server_check handle (Waiting []) segs = (os, Waiting []) /\
             requests_read os = map (fun '(i, r, cs) => Some (i, seen_request r, cs)) ms.
Proof.
  intros Hh F E. destruct (requests_reads ms ws F) as (os & R & Q). exists os. split; [|exact Q].
  eapply receive_messages; eauto using server_check_true.
  clear. induction os; constructor; auto.
Qed.

Lemma client_receives handle ms ws segs :
  (forall o, handle o = Ok tt) ->
  Forall2 (fun '(i, r, cs) w => toWire (message_obj i (response_obj r) cs) = Ok w) ms ws ->
  concat segs = concat ws ->
  exists os, receive client_check handle (Waiting []) segs = (os, Waiting []) /\
             responses_read os = map (fun '(i, r, cs) => Some (i, seen_response r, cs)) ms.
Proof.
  intros Hh F E. destruct (responses_reads ms ws F) as (os & R & Q & C). exists os. split; [|exact Q].
  eapply receive_messages; eauto using client_check_true.
Qed.

Lemma server_segmentation handle segs :
  only_messages (concat segs) ->
  receive server_check handle (Waiting []) segs = dataReceived server_check handle (Waiting []) (concat segs).
Proof. apply receive_concat, server_check_true. Qed.

Lemma client_segmentation handle segs :
  only_messages (concat segs) ->
  receive client_check handle (Waiting []) segs = dataReceived client_check handle (Waiting []) (concat segs).
Proof. apply receive_concat, client_check_true. Qed.

(** ** Buffers that wait (C06) *)
Lemma message_completes handle i r cs w p t :
  (forall o, handle o = Ok tt) ->
  toWire (message_obj i (request_obj r) cs) = Ok w -> w = p ++ t -> t <> [] ->
  dataReceived server_check handle (Waiting []) p = ([], Waiting p) /\
  exists o, dataReceived server_check handle (Waiting p) t = ([o], Waiting []) /\
            read_message read_request o = Some (i, seen_request r, cs).
Proof.
  intros Hh W E Ht. cbn [dataReceived app]. split.
  - destruct p as [|b p]; [reflexivity|]. apply run_short. intros [[j c] n] H.
    pose proof (toWire_tlv _ _ W) as (id & ct & Hi & T).
    assert (PP : proper_prefix (b :: p) w) by (exists t; auto).
    rewrite (berHeader_prefix _ _ _ _ Hi T PP) in H. discriminate.
  - destruct (request_message_seen i r cs w W) as (o & A & B & _). exists o. split; [|exact B].
    rewrite <- E. rewrite <- (app_nil_r w). rewrite (run_reads _ _ Hh _ _ _ A); reflexivity.
Qed.

(** The two buffers that can never be completed. *)
Lemma indefinite_stuck check handle x :
  dataReceived check handle (Waiting [x30; x80]) x = ([], Waiting ([x30; x80] ++ x)).
Proof.
  cbn [dataReceived]. apply run_short. intros y. rewrite berHeader_eq. cbn [app header_of].
  cbn zeta. change (b2z x80 <? 128) with false. cbn iota. change (b2z x80 - 128) with 0. cbn [Z.eqb].
  destruct (_ <? _); congruence.
Qed.

Lemma overrun_stuck check handle x :
  dataReceived check handle (Waiting [x30; x03; x02; x05; x01]) x =
    ([], Waiting ([x30; x03; x02; x05; x01] ++ x)).
Proof.
  cbn [dataReceived].
  assert (H : berHeader [x30; x03; x02; x05; x01] = Ok (16, [x02; x05; x01], 5)) by (vm_compute; reflexivity).
  rewrite (run_head _ _ _ _ _ _ (berHeader_ext _ x _ _ _ H)). rewrite Z.eqb_refl.
  replace (body [x02; x05; x01]) with (@Err obj EInsufficient) by (vm_compute; reflexivity).
  reflexivity.
Qed.

Lemma stuck_forever check handle b :
  (forall x, dataReceived check handle (Waiting b) x = ([], Waiting (b ++ x))) ->
  forall segs, fst (receive check handle (Waiting b) segs) = [] /\
               exists b', snd (receive check handle (Waiting b) segs) = Waiting b'.
Proof.
  intros H segs.
  assert (G : forall segs x, receive check handle (Waiting (b ++ x)) segs = ([], Waiting (b ++ x ++ concat segs))).
  { clear segs. induction segs as [|s r IH]; intros x; cbn [receive concat]; [now rewrite app_nil_r|].
    assert (D : dataReceived check handle (Waiting (b ++ x)) s = ([], Waiting (b ++ (x ++ s)))).
    { specialize (H (x ++ s)). cbn [dataReceived] in *. now rewrite <- app_assoc. }
    rewrite D, IH. cbn [app]. now rewrite <- app_assoc. }
  specialize (G segs []). rewrite app_nil_r in G. rewrite G. split; [reflexivity|eexists; reflexivity].
Qed.
