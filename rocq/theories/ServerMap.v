(** Proofs about the effects of requests on the directory. *)
From Verif Require Import Base BaseFacts BerModel LdapModel LdapSpec Utf8Model Utf8Proofs DnModel EntryModel EntryProofs DeltaModel DeltaProofs MatchModel
  UtilModel LdifModel PwModel InmemModel InmemSpec InmemProofs ServerModel ServerSpec ServerProofs.

(** ** The attributes of an add request *)
Lemma dict_add_fst k vs d x : In x (map fst (dict_add k vs d)) <-> x = k \/ In x (map fst d).
Proof.
  induction d as [|(k', l) d IH]; cbn [dict_add map fst In]; [intuition|]. destruct (pyval_eqb_spec k k') as [->|N]; cbn [map fst In]; [intuition|]. rewrite IH. intuition.
Qed.
Lemma dict_add_nodup k vs d : NoDup (map fst d) -> NoDup (map fst (dict_add k vs d)).
Proof.
  induction d as [|(k', l) d IH]; cbn [dict_add map fst]; intros N; [constructor; [intros []|constructor]|]. inversion N as [|x y N1 N2]; subst.
  destruct (pyval_eqb_spec k k') as [->|Q]; cbn [map fst]; [now constructor|]. constructor; [|now apply IH]. rewrite dict_add_fst. intuition.
Qed.
Lemma dict_add_in k vs d x v : NoDup (map fst d) ->
  (exists l, In (x, l) (dict_add k vs d) /\ In v l) <-> (x = k /\ In v vs) \/ exists l, In (x, l) d /\ In v l.
Proof.
  induction d as [|(k', l) d IH]; cbn [dict_add map fst]; intros N.
  - split.
    + intros (l & [[= <- <-]|[]] & V). left. rewrite In_set_of in V. auto.
    + intros [(-> & V)|(l & [] & _)]. exists (set_of vs). rewrite In_set_of. cbn. auto.
  - inversion N as [|p q N1 N2]; subst. specialize (IH N2). destruct (pyval_eqb_spec k k') as [->|Q].
    + split.
      * intros (l' & [[= <- <-]|I] & V); [rewrite In_set_update in V; destruct V as [V|V]; [right; exists l; cbn; auto|auto]|right; exists l'; cbn; auto].
      * intros [(-> & V)|(l' & [[= <- <-]|I] & V)]; [exists (set_update l vs); rewrite In_set_update; cbn; auto|exists (set_update l vs); rewrite In_set_update; cbn; auto|exists l'; cbn; auto].
    + split.
      * intros (l' & [[= <- <-]|I] & V); [right; exists l; cbn; auto|]. destruct (proj1 IH (ex_intro _ l' (conj I V))) as [A|(l2 & A & A')]; [auto|]. right. exists l2. cbn. auto.
      * intros [A|(l' & [[= <- <-]|I] & V)]; [|exists l; cbn; auto|].
        -- destruct (proj2 IH (or_introl A)) as (l2 & A1 & A2). exists l2. cbn. auto.
        -- destruct (proj2 IH (or_intror (ex_intro _ l' (conj I V)))) as (l2 & A1 & A2). exists l2. cbn. auto.
Qed.
Lemma mapR_octets bs : mapR bytes_value (map octets bs) = Ok (map PBytes bs).
Proof. induction bs as [|b0 bs IH]; [reflexivity|]. cbn [map mapR]. change (bytes_value (octets b0)) with (Ok (PBytes b0)). cbn [bind]. rewrite IH. reflexivity. Qed.
Lemma add_attrs_merged ats : exists a, add_attrs (OSeq KSeq (class_tag KSeq) (map attr_obj ats)) = Ok a /\ merged ats a.
Proof.
  unfold add_attrs. cbn [iter_of data_of bind].
  assert (M : mapR add_attr (map attr_obj ats) = Ok (map (fun a => (PBytes (fst a), map PBytes (snd a))) ats)).
  { induction ats as [|(b0, bs) ats IH]; [reflexivity|]. cbn [map mapR]. 
    assert (E : add_attr (attr_obj (b0, bs)) = (do vs <- mapR bytes_value (map octets bs); Ok (PBytes b0, vs))) by reflexivity.
    rewrite E, mapR_octets. cbn [bind]. rewrite IH. reflexivity. }
  rewrite M. cbn [bind]. eexists. split; [reflexivity|].
  assert (G : forall ats d, NoDup (map fst d) ->
    let d' := fold_left (fun d kv => dict_add (fst kv) (snd kv) d) (map (fun a => (PBytes (fst a), map PBytes (snd a))) ats) d in
    NoDup (map fst d') /\ (forall k, In k (map fst d') <-> In k (map fst d) \/ exists b bs, k = PBytes b /\ In (b, bs) ats) /\
    (forall k v, (exists vs, In (k, vs) d' /\ In v vs) <-> (exists vs, In (k, vs) d /\ In v vs) \/ exists b bs w, k = PBytes b /\ In (b, bs) ats /\ v = PBytes w /\ In w bs)).
  { clear. induction ats as [|(b0, bs) ats IH]; intros d N; cbn [map fold_left fst snd].
    - split; [exact N|]. split; [intros k; split; [auto|intros [H|(b & bs & _ & [])]; exact H]|].
      intros k v. split; [auto|intros [H|(b & bs & w & _ & [] & _)]; exact H].
    - destruct (IH (dict_add (PBytes b0) (map PBytes bs) d) (dict_add_nodup _ _ _ N)) as (I1 & I2 & I3). split; [exact I1|]. split.
      + intros k. rewrite I2, dict_add_fst. split.
        * intros [[->|H]|(b & bs' & E & H)]; [right; exists b0, bs; cbn; auto|auto|right; exists b, bs'; cbn; auto].
        * intros [H|(b & bs' & E & [[= <- <-]|H])]; [auto|subst; auto|right; eauto].
      + intros k v. rewrite I3, (dict_add_in _ _ _ _ _ N). split.
        * intros [[(-> & V)|H]|(b & bs' & w & E & H & H')].
          -- apply in_map_iff in V. destruct V as (w & <- & V). right. exists b0, bs, w. cbn. auto.
          -- auto.
          -- right. exists b, bs', w. cbn. auto.
        * intros [H|(b & bs' & w & E & [[= <- <-]|H] & E' & V)].
          -- auto.
          -- left. left. split; [exact E|]. subst v. now apply in_map.
          -- right. exists b, bs', w. auto. }
  destruct (G ats [] (NoDup_nil _)) as (G1 & G2 & G3). split; [exact G1|]. split.
  - intros k. specialize (G2 k). cbn [map In] in G2.
    assert (G2' : forall P Q : Prop, (P <-> False \/ Q) -> (P <-> Q)) by (clear; tauto). apply G2' in G2. rewrite <- G2. clear. split.
    + intros (vs & I). apply in_map_iff. exists (k, vs). auto.
    + intros I. apply in_map_iff in I. destruct I as ((k', vs) & <- & I). eauto.
  - intros k v. rewrite (G3 k v). split; [intros [(vs & [] & _)|H]; exact H|auto].
Qed.

Section Map.
  Variable lower : str -> str.
  Variable io : Z -> Z -> res Z.
  Variable sha : bytes -> bytes.
  Variable oc_first pw_first : bool.
  Variable odd_match : obj -> entry -> res bool.
  Variable text : exn -> bytes.
  Variable depth : nat.
  Notation handle := (handle lower io sha oc_first pw_first odd_match text depth).
  Notation serve := (serve lower io sha oc_first pw_first odd_match text depth).
  Notation final := ServerModel.final.

  Lemma final_any i r : exists ev, final (VInt i) (Some (response_obj r)) = [ev] /\ (sane i r -> sends ev i r).
  Proof.
    destruct (final_one (VInt i) (response_obj r)) as (ev & E & _). exists ev. split; [exact E|]. intros S.
    destruct (final_sends i r S) as (ev' & E' & Q). rewrite E in E'. injection E' as ->. exact Q.
  Qed.
  Lemma wrote (s s' : srv) i r : exists fin, Ok (s', [] ++ final (VInt i) (Some (response_obj r))) = Ok (s', [fin]) /\ (sane i r -> sends fin i r).
  Proof. destruct (final_any i r) as (ev & -> & S). exists ev. auto. Qed.
  Ltac done0 s i r := let H := fresh in destruct (wrote s s i r) as (fin & _ & H).

  (** ** Compare *)
  Lemma compare_spec s salt tag i cs b a v u d : i <> 0 -> no_critical cs -> utf8_decode b = Ok u -> parse_dn io u = Ok d ->
    exists fin code m, said text m /\ handle s salt (OMessage tag (VInt i) (request_obj (Compare b a v)) cs) = Ok (s, [fin]) /\
      (sane i (CompareResponse (mkResult code [] m)) -> sends fin i (CompareResponse (mkResult code [] m))) /\
      forall r, lookup lower depth (v_heap s) (v_root s) d = r ->
      match r with
      | Ok c => forall n, nth_error (v_heap s) c = Some n -> forall t, matches lower (n_entry n) (FEq a v) = Ok t -> code = if t then 6 else 5
      | Err (ELdap c) => code = c
      | Err _ => code = 80
      end.
  Proof.
    intros N C U P. assert (N' : VInt i <> VInt 0) by congruence. cbn [request_obj].
    rewrite (handle_eq lower io sha oc_first pw_first odd_match text depth) with (k := RCompare) by (exact N' || reflexivity). cbn [handler].
    unfold handle_compare. rewrite (check_ok cs C). cbn [ServerModel.try to_dn]. rewrite U. cbn [bind]. rewrite P. cbn [ServerModel.try].
    assert (EX : forall x, exists code m, compare_error text x = response_obj (CompareResponse (mkResult code [] m)) /\ said text m /\ code = match x with ELdap c => c | _ => 80 end).
    { unfold said. intros x. destruct x; cbn; eexists; eexists; (split; [reflexivity|split; [eauto|reflexivity]]). }
    destruct (lookup lower depth (v_heap s) (v_root s) d) as [r|x] eqn:L; cbn [bind].
    - destruct (entry_of s r) as [e|x] eqn:E; cbn [bind].
      + change (matchf lower odd_match e (OAva KEq (class_tag KEq) (octets a) (octets v))) with (matches lower e (FEq a v)).
        destruct (matches lower e (FEq a v)) as [t|x] eqn:M.
        * change (res_obj KCmpResp (if t then 6 else 5) (VBytes []) (VBytes [])) with (response_obj (CompareResponse (mkResult (if t then 6 else 5) [] []))). unfold give.
          destruct (wrote s s i (CompareResponse (mkResult (if t then 6 else 5) [] []))) as (fin & F & S). exists fin, (if t then 6 else 5), []. split; [now left|]. split; [exact F|]. split; [exact S|].
          intros r0 <- n NN t0 MM. unfold entry_of, deref in E. rewrite NN in E. apply Ok_inj in E. subst e. rewrite M in MM. apply Ok_inj in MM. now subst.
        * destruct (EX x) as (code & m & EE & SM & CC). unfold give. rewrite EE. destruct (wrote s s i (CompareResponse (mkResult code [] m))) as (fin & F & S). exists fin, code, m.
          split; [exact SM|]. split; [exact F|]. split; [exact S|]. intros r0 <- n NN t0 MM. unfold entry_of, deref in E. rewrite NN in E. apply Ok_inj in E. subst e. congruence.
      + destruct (EX x) as (code & m & EE & SM & CC). unfold give. rewrite EE. destruct (wrote s s i (CompareResponse (mkResult code [] m))) as (fin & F & S). exists fin, code, m.
        split; [exact SM|]. split; [exact F|]. split; [exact S|]. intros r0 <- n NN. unfold entry_of, deref in E. rewrite NN in E. discriminate.
    - destruct (EX x) as (code & m & EE & SM & CC). unfold give. rewrite EE. destruct (wrote s s i (CompareResponse (mkResult code [] m))) as (fin & F & S). exists fin, code, m.
      split; [exact SM|]. split; [exact F|]. split; [exact S|]. intros r0 <-. rewrite CC. destruct x; reflexivity.
  Qed.

  (** ** Add and delete *)
  Lemma told_err x : told (Err x) = match x with ELdap c => c | _ => 2 end.
  Proof. destruct x; reflexivity. Qed.
  Lemma add_step s salt tag i cs b ats u rd up : v_root s = 0%nat -> i <> 0 -> no_critical cs -> utf8_decode b = Ok u -> parse_dn io u = Ok (rd :: up) ->
    parse_rdn io (rdn_text rd) = Ok rd ->
    exists a fin, merged ats a /\ let (h, o) := do_hop lower depth (HAdd up rd a) (v_heap s) in
      handle s salt (OMessage tag (VInt i) (request_obj (AddReq b ats)) cs) = Ok (set_heap s h, [fin]) /\ tells text i (AddReq b ats) o fin.
  Proof.
    intros R N C U P PR. assert (N' : VInt i <> VInt 0) by congruence. destruct (add_attrs_merged ats) as (a & A & M). exists a. cbn [request_obj].
    rewrite (handle_eq lower io sha oc_first pw_first odd_match text depth) with (k := RAdd) by (exact N' || reflexivity). cbn [handler].
    unfold handle_add. rewrite (check_ok cs C). cbn [ServerModel.try]. rewrite A. cbn [ServerModel.try to_dn]. rewrite U. cbn [bind]. rewrite P. cbn [ServerModel.try].
    cbn [do_hop]. rewrite R. assert (H0 : s = set_heap s (v_heap s)) by (destruct s; reflexivity).
    assert (BAD : forall x, exists fin, Ok (s, [] ++ final (VInt i) (Some (on_error RAdd x (VBytes (text x))))) = Ok (set_heap s (v_heap s), [fin]) /\ tells text i (AddReq b ats) (Err x) fin).
    { intros x. assert (EE : on_error RAdd x (VBytes (text x)) = response_obj (AddResponse (mkResult (told (Err x)) [] (text x)))) by (destruct x; reflexivity). rewrite EE.
      destruct (wrote s s i (AddResponse (mkResult (told (Err x)) [] (text x)))) as (fin & F & S). exists fin. rewrite F. split; [now rewrite <- H0|]. exists (text x). split; [right; eauto|exact S]. }
    destruct (lookup lower depth (v_heap s) 0%nat up) as [p|x]; cbn [ServerModel.try bind].
    - rewrite PR. cbn [ServerModel.try]. destruct (add_child lower (v_heap s) p rd a) as [(h, c)|x]; cbn [ServerModel.try].
      + unfold give. change (res_obj KAddResp 0 (VBytes []) (VBytes [])) with (response_obj (AddResponse (mkResult 0 [] []))).
        destruct (wrote s (set_heap s h) i (AddResponse (mkResult 0 [] []))) as (fin & F & S). exists fin. split; [exact M|]. split; [exact F|]. exists []. split; [now left|exact S].
      + destruct (BAD x) as (fin & F & T). exists fin. split; [exact M|]. split; [exact F|exact T].
    - destruct (BAD x) as (fin & F & T). exists fin. split; [exact M|]. split; [exact F|exact T].
  Qed.
  Lemma not_written i : exists x, queue (VInt i) (res_obj KDelResp 66 (VBytes []) (VInt 0)) = Err x.
  Proof.
    unfold queue. assert (E : exists x, toWire (res_obj KDelResp 66 (VBytes []) (VInt 0)) = Err x) by (eexists; vm_compute; reflexivity). destruct E as (x & E).
    cbn [toWire]. rewrite E. cbn [app]. unfold w_seq. cbn [mapM]. destruct (w_int (class_tag KInteger) (VInt i)); cbn [bind]; eauto.
  Qed.
  Lemma lookup_not66 h : forall dp r d, lookup lower dp h r d <> Err (ELdap 66).
  Proof.
    induction dp as [|dp IH]; intros r d H; [discriminate|]. cbn [lookup] in H. unfold deref at 1 in H. destruct (nth_error h r) as [n|]; [|discriminate]. cbn [bind] in H.
    destruct (negb (contains lower (n_dn n) d)); [discriminate|]. destruct (dn_eqb lower d (n_dn n)); [discriminate|]. revert H.
    induction (n_children n) as [|(k, c) cs IHc]; [discriminate|]. intros H. unfold deref at 1 in H. destruct (nth_error h c) as [m|]; [|discriminate]. cbn [bind] in H.
    destruct (contains lower (n_dn m) d); [exact (IH c d H)|exact (IHc H)].
  Qed.
  Lemma delete_step s salt tag i cs b u d : v_root s = 0%nat -> i <> 0 -> no_critical cs -> utf8_decode b = Ok u -> parse_dn io u = Ok d ->
    exists fin, let (h, o) := do_hop lower depth (HDelete d) (v_heap s) in
      handle s salt (OMessage tag (VInt i) (request_obj (Delete b)) cs) = Ok (set_heap s h, [fin]) /\ tells text i (Delete b) o fin.
  Proof.
    intros R N C U P. assert (N' : VInt i <> VInt 0) by congruence. cbn [request_obj].
    rewrite (handle_eq lower io sha oc_first pw_first odd_match text depth) with (k := RDelete) by (exact N' || reflexivity). cbn [handler].
    unfold handle_delete. rewrite (check_ok cs C). cbn [ServerModel.try to_dn]. rewrite U. cbn [bind]. rewrite P. cbn [ServerModel.try].
    cbn [do_hop]. rewrite R. assert (H0 : s = set_heap s (v_heap s)) by (destruct s; reflexivity).
    assert (BAD : forall x, told (Err x) <> 66 -> exists fin, Ok (s, [] ++ final (VInt i) (Some (on_error RDelete x (VBytes (text x))))) = Ok (set_heap s (v_heap s), [fin]) /\ tells text i (Delete b) (Err x) fin).
    { intros x X. assert (EE : on_error RDelete x (VBytes (text x)) = response_obj (DeleteResponse (mkResult (told (Err x)) [] (text x)))) by (destruct x; reflexivity). rewrite EE.
      destruct (wrote s s i (DeleteResponse (mkResult (told (Err x)) [] (text x)))) as (fin & F & S). exists fin. rewrite F. split; [now rewrite <- H0|].
      unfold tells. destruct (Z.eqb_spec (told (Err x)) 66) as [E|_]; [contradiction|]. exists (text x). split; [right; eauto|exact S]. }
    destruct (lookup lower depth (v_heap s) 0%nat d) as [r|x] eqn:L; cbn [ServerModel.try bind].
    - destruct (delete (v_heap s) r) as [(h, c)|x] eqn:DE.
      + unfold give. change (res_obj KDelResp 0 (VBytes []) (VBytes [])) with (response_obj (DeleteResponse (mkResult 0 [] []))).
        destruct (wrote s (set_heap s h) i (DeleteResponse (mkResult 0 [] []))) as (fin & F & S). exists fin. split; [exact F|]. unfold tells. cbn. exists []. split; [now left|exact S].
      + destruct (Z.eq_dec (told (Err x)) 66) as [E|E].
        * assert (x = ELdap 66) as -> by (destruct x; cbn in E; try discriminate; now subst). destruct (not_written i) as (y & Y). exists (SDropped y). split; [rewrite <- H0|cbn; eauto].
          cbn -[queue]. change (fail_obj RDelete 66 (VInt 0)) with (res_obj KDelResp 66 (VBytes []) (VInt 0)). now rewrite Y.
        * destruct (BAD x E) as (fin & F & T). exists fin. split; [|exact T]. rewrite <- F. f_equal. f_equal. f_equal. f_equal. f_equal. f_equal. unfold delete_msg.
          destruct x as [ | | | | | | | | | | | |c| ]; try reflexivity. cbn in E. destruct c as [|c|c]; try reflexivity. repeat (destruct c as [c|c|]; try reflexivity). contradiction.
    - destruct (BAD x) as (fin & F & T); [|exists fin; split; [exact F|exact T]].
      intros E. assert (x = ELdap 66) as -> by (destruct x; cbn in E; try discriminate; now subst). exact (lookup_not66 _ _ _ _ L).
  Qed.

  (** A conversation of adds and deletes *)
  Lemma hops_served (ms : list (Z * request * bytes)) : forall s, v_root s = 0%nat -> Forall (fun m => fst (fst m) <> 0 /\ readable io (snd (fst m))) ms ->
    exists hs w, Forall2 (fun m h => asks io (snd (fst m)) h) ms hs /\
      let (h', os) := do_hops lower depth hs (v_heap s) in
      serve s (map (fun m => (message_obj (fst (fst m)) (request_obj (snd (fst m))) None, snd m)) ms) = (set_heap s h', w, None) /\
      Forall2 (fun m (oe : res unit * sevent) => tells text (fst (fst m)) (snd (fst m)) (fst oe) (snd oe)) ms (combine os w) /\ length os = length w.
  Proof.
    induction ms as [|((i, req), salt) ms IH]; intros s R F.
    - exists [], []. split; [constructor|]. cbn. split; [destruct s; reflexivity|]. split; [constructor|reflexivity].
    - inversion F as [|x y (N & RD) F2]; subst. cbn [fst snd] in N, RD.
      assert (ST : exists h1 hp o fin, asks io req hp /\ do_hop lower depth hp (v_heap s) = (h1, o) /\
        handle s salt (message_obj i (request_obj req) None) = Ok (set_heap s h1, [fin]) /\ tells text i req o fin).
      { destruct req; try contradiction; cbn [readable] in RD.
        - destruct RD as (u & rd & up & U & P & PR). destruct (add_step s salt (class_tag KMessage) i None dn attrs u rd up R N I U P PR) as (a & fin & M & H).
          destruct (do_hop lower depth (HAdd up rd a) (v_heap s)) as (h1, o) eqn:D. exists h1, (HAdd up rd a), o, fin. split; [econstructor; eauto|]. split; [exact D|exact H].
        - destruct RD as (u & d & U & P). destruct (delete_step s salt (class_tag KMessage) i None dn u d R N I U P) as (fin & H).
          destruct (do_hop lower depth (HDelete d) (v_heap s)) as (h1, o) eqn:D. exists h1, (HDelete d), o, fin. split; [econstructor; eauto|]. split; [exact D|exact H]. }
      destruct ST as (h1 & hp & o & fin & A & D & H & T).
      destruct (IH (set_heap s h1) R F2) as (hs & w & A2 & IH2). exists (hp :: hs), (fin :: w). split; [constructor; assumption|].
      cbn [do_hops]. rewrite D. cbn [v_heap set_heap] in IH2. destruct (do_hops lower depth hs h1) as (h', os). destruct IH2 as (S2 & T2 & L2).
      split; [|split; [cbn [combine]; constructor; [exact T|exact T2]|cbn; now rewrite L2]].
      cbn [map ServerModel.serve fst snd]. rewrite H. rewrite S2. reflexivity.
  Qed.

  (** ** Modify and modifyDN *)
  Lemma mods_from ms : Forall (fun m => exists k, kind_of_mod (m_op m) k) ms -> exists ds, mapR mod_from_ldap (map mod_obj ms) = Ok ds /\ Forall2 is_mod ms ds.
  Proof.
    induction 1 as [|m ms (k & K) F (ds & M & F2)]; [exists []; split; [reflexivity|constructor]|]. exists (new_delta k (PBytes (m_attr m)) (map PBytes (m_values m)) :: ds). split.
    - cbn [map mapR]. assert (E : mod_from_ldap (mod_obj m) = Ok (new_delta k (PBytes (m_attr m)) (map PBytes (m_values m)))).
      { unfold mod_from_ldap, mod_obj. cbn [iter_of data_of bind value_of]. assert (CO : class_of_op (VInt (m_op m)) = Some k) by (destruct K as [(-> & ->)|[(-> & ->)|(-> & ->)]]; reflexivity).
        rewrite CO. change (bytes_value (octets (m_attr m))) with (Ok (PBytes (m_attr m))). cbn [bind]. rewrite mapR_octets. reflexivity. }
      rewrite E. cbn [bind]. rewrite M. reflexivity.
    - constructor; [|exact F2]. split; [exact K|]. split; [reflexivity|]. split; [apply NoDup_set_of|]. intros v. cbn [new_delta d_vals]. rewrite In_set_of, in_map_iff.
      split; intros (w & A & B'); exists w; auto.
  Qed.
  Lemma modify_spec s salt tag i cs b ms u d : i <> 0 -> no_critical cs -> utf8_decode b = Ok u -> parse_dn io u = Ok d ->
    Forall (fun m => exists k, kind_of_mod (m_op m) k) ms ->
    exists ds fin o s', Forall2 is_mod ms ds /\
      handle s salt (OMessage tag (VInt i) (request_obj (Modify b ms)) cs) = Ok (s', [fin]) /\
      (exists m, said text m /\ (sane i (ModifyResponse (mkResult (told o) [] m)) -> sends fin i (ModifyResponse (mkResult (told o) [] m)))) /\
      match lookup lower depth (v_heap s) (v_root s) d with
      | Ok r => forall n, nth_error (v_heap s) r = Some n ->
          o = snd (patch_all lower ds (n_entry n)) /\ s' = set_heap s (set_nth r (set_entry n (fst (patch_all lower ds (n_entry n)))) (v_heap s))
      | Err x => o = Err x /\ s' = s
      end.
  Proof.
    intros N C U P K. assert (N' : VInt i <> VInt 0) by congruence. destruct (mods_from ms K) as (ds & M & F2). exists ds. cbn [request_obj].
    rewrite (handle_eq lower io sha oc_first pw_first odd_match text depth) with (k := RModify) by (exact N' || reflexivity). cbn [handler].
    unfold handle_modify. rewrite (check_ok cs C). cbn [ServerModel.try from_ldap]. rewrite M. cbn [bind]. rewrite U. cbn [bind]. rewrite P. cbn [bind ServerModel.try].
    assert (BAD : forall (s' : srv) x, exists fin, Ok (s', [] ++ final (VInt i) (Some (on_error RModify x (VBytes (text x))))) = Ok (s', [fin]) /\
       exists m, said text m /\ (sane i (ModifyResponse (mkResult (told (Err x)) [] m)) -> sends fin i (ModifyResponse (mkResult (told (Err x)) [] m)))).
    { intros s' x. assert (EE : on_error RModify x (VBytes (text x)) = response_obj (ModifyResponse (mkResult (told (Err x)) [] (text x)))) by (destruct x; reflexivity). rewrite EE.
      destruct (wrote s s' i (ModifyResponse (mkResult (told (Err x)) [] (text x)))) as (fin & F & S). exists fin. rewrite F. split; [reflexivity|]. exists (text x). split; [right; eauto|exact S]. }
    destruct (lookup lower depth (v_heap s) (v_root s) d) as [r|x]; cbn [ServerModel.try].
    - destruct (deref (v_heap s) r) as [n|x] eqn:D; cbn [ServerModel.try].
      + apply deref_ok in D. destruct (patch_all lower ds (n_entry n)) as (e, o) eqn:PA. destruct o as [[]|x].
        * unfold give. change (res_obj KModResp 0 (VBytes []) (VBytes [])) with (response_obj (ModifyResponse (mkResult 0 [] []))).
          destruct (wrote s (set_heap s (set_nth r (set_entry n e) (v_heap s))) i (ModifyResponse (mkResult 0 [] []))) as (fin & F & S).
          exists fin, (Ok tt), (set_heap s (set_nth r (set_entry n e) (v_heap s))). split; [exact F2|]. split; [exact F|]. split; [exists []; split; [now left|exact S]|].
          intros n0 NN. rewrite D in NN. injection NN as <-. rewrite PA. auto.
        * destruct (BAD (set_heap s (set_nth r (set_entry n e) (v_heap s))) x) as (fin & F & S). exists fin, (Err x), (set_heap s (set_nth r (set_entry n e) (v_heap s))).
          split; [exact F2|]. split; [exact F|]. split; [exact S|]. intros n0 NN. rewrite D in NN. injection NN as <-. rewrite PA. auto.
      + destruct (BAD s x) as (fin & F & S). exists fin, (Err x), s. split; [exact F2|]. split; [exact F|]. split; [exact S|]. intros n NN. apply deref_ok in NN. congruence.
    - destruct (BAD s x) as (fin & F & S). exists fin, (Err x), s. split; [exact F2|]. split; [exact F|]. split; [exact S|]. auto.
  Qed.
  Lemma modify_dn_spec s salt tag i cs b nb (del : bool) ns u d t nrd sup : i <> 0 -> no_critical cs -> utf8_decode b = Ok u -> parse_dn io u = Ok d ->
    utf8_decode nb = Ok t -> parse_rdn io t = Ok nrd ->
    match ns with None => sup = tl d | Some sb => exists x, utf8_decode sb = Ok x /\ parse_dn io x = Ok sup end ->
    exists fin o s', handle s salt (OMessage tag (VInt i) (request_obj (ModifyDN b nb del ns)) cs) = Ok (s', [fin]) /\
      (exists m, said text m /\ (sane i (ModifyDNResponse (mkResult (told o) [] m)) -> sends fin i (ModifyDNResponse (mkResult (told o) [] m)))) /\
      if del then
        match lookup lower depth (v_heap s) (v_root s) d with
        | Ok r => o = snd (move lower depth (v_heap s) r (nrd :: sup)) /\ s' = set_heap s (fst (move lower depth (v_heap s) r (nrd :: sup)))
        | Err x => o = Err x /\ s' = s
        end
      else told o = 53 /\ s' = s.
  Proof.
    intros N C U P T NR SU. assert (N' : VInt i <> VInt 0) by congruence. cbn [request_obj].
    rewrite (handle_eq lower io sha oc_first pw_first odd_match text depth) with (k := RModifyDN) by (exact N' || reflexivity). cbn [handler].
    unfold handle_modify_dn. rewrite (check_ok cs C). cbn [ServerModel.try to_dn]. rewrite U. cbn [bind]. rewrite P. cbn [bind ServerModel.try]. rewrite T. cbn [bind]. rewrite NR. cbn [ServerModel.try].
    assert (BAD : forall (s' : srv) x, exists fin, Ok (s', [] ++ final (VInt i) (Some (on_error RModifyDN x (VBytes (text x))))) = Ok (s', [fin]) /\
       exists m, said text m /\ (sane i (ModifyDNResponse (mkResult (told (Err x)) [] m)) -> sends fin i (ModifyDNResponse (mkResult (told (Err x)) [] m)))).
    { intros s' x. assert (EE : on_error RModifyDN x (VBytes (text x)) = response_obj (ModifyDNResponse (mkResult (told (Err x)) [] (text x)))) by (destruct x; reflexivity). rewrite EE.
      destruct (wrote s s' i (ModifyDNResponse (mkResult (told (Err x)) [] (text x)))) as (fin & F & S). exists fin. rewrite F. split; [reflexivity|]. exists (text x). split; [right; eauto|exact S]. }
    destruct del; cbn [pybool truthy negb Z.eqb].
    - assert (SE : match pyopt VBytes ns with VNone => Ok (dn_up d) | _ => to_dn io (pyopt VBytes ns) end = Ok sup).
      { destruct ns as [sb|]; cbn [pyopt to_dn]; [|now subst]. destruct SU as (x & X & PX). rewrite X. exact PX. }
      rewrite SE. cbn [ServerModel.try]. destruct (lookup lower depth (v_heap s) (v_root s) d) as [r|x]; cbn [ServerModel.try].
      + destruct (move lower depth (v_heap s) r (nrd :: sup)) as (h, [[]|x]).
        * unfold give. change (res_obj KModDNResp 0 (VBytes []) (VBytes [])) with (response_obj (ModifyDNResponse (mkResult 0 [] []))).
          destruct (wrote s (set_heap s h) i (ModifyDNResponse (mkResult 0 [] []))) as (fin & F & S). exists fin, (Ok tt), (set_heap s h). split; [exact F|]. split; [exists []; split; [now left|exact S]|]. auto.
        * destruct (BAD (set_heap s h) x) as (fin & F & S). exists fin, (Err x), (set_heap s h). auto.
      + destruct (BAD s x) as (fin & F & S). exists fin, (Err x), s. auto.
    - destruct (BAD s (ELdap 53)) as (fin & F & S). exists fin, (Err (ELdap 53)), s. auto.
  Qed.
End Map.
