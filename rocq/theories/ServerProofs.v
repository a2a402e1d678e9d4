(** Proofs about the server. *)
From Verif Require Import Base BaseFacts BerModel BerProofs LdapModel LdapSpec LdapProofs Utf8Model Utf8Proofs DnModel EntryModel EntryProofs
  DeltaModel MatchModel UtilModel LdifModel PwModel PwSpec PwProofs InmemModel InmemSpec InmemProofs ServerModel ServerSpec.

(** ** Decoding never raises an LDAP error *)
Definition nl {A} (r : res A) : Prop := forall c, r <> Err (ELdap c).
Ltac nlc := unfold nl in *; intros ? ?; congruence.
Lemma nl_ok A (a : A) : nl (Ok a). Proof. nlc. Qed.
Lemma nl_bind A B (r : res A) (k : A -> res B) : nl r -> (forall a, nl (k a)) -> nl (bind r k).
Proof. destruct r; cbn; intros H K; [apply K|]. intros c [= ->]. now apply (H c). Qed.
Lemma nl_guard b e : (forall c, e <> ELdap c) -> nl (guard b e).
Proof. intros H. destruct b; cbn; intros c; [congruence|]. intros [= ->]. now apply (H c). Qed.
Lemma nl_mapM A B (f : A -> res B) l : (forall a, nl (f a)) -> nl (mapM f l).
Proof. intros H. induction l; cbn [mapM]; [apply nl_ok|]. apply nl_bind; [apply H|intros]. apply nl_bind; [apply IHl|intros; apply nl_ok]. Qed.
Lemma nl_value_of o : nl (value_of o). Proof. destruct o; cbn; nlc. Qed.
Lemma nl_data_of o : nl (data_of o). Proof. destruct o; cbn; nlc. Qed.
Lemma nl_iter_of o : nl (iter_of o). Proof. destruct o; cbn; nlc. Qed.
Lemma nl_nth l n : nl (nth_obj l n). Proof. unfold nth_obj. destruct (nth_error l n); nlc. Qed.
Lemma nl_ber2int s e : nl (ber2int s e).
Proof. destruct e; [intros c; now destruct s|]. destruct s; rewrite ?ber2int_signed, ?ber2int_unsigned; first [nlc | discriminate]. Qed.
Lemma nl_control_tuple o : nl (control_tuple o). Proof. destruct o; cbn; nlc. Qed.
Lemma nl_as_bytes o : nl (as_bytes o). Proof. destruct o; cbn; nlc. Qed.
Lemma nl_ext_parts l a b : nl (ext_parts l a b).
Proof.
  revert a b. induction l as [|o l IH]; intros; cbn [ext_parts]; [nlc|].
  repeat (destruct (_ : bool)); try apply nl_bind; auto using nl_value_of; nlc.
Qed.
Lemma nl_entry_attr o : nl (entry_attr o).
Proof.
  unfold entry_attr. apply nl_bind; [apply nl_iter_of|]. intros l. destruct l as [|x [|y [|]]]; try nlc.
  repeat (apply nl_bind; intros); auto using nl_value_of, nl_iter_of, nl_ok. apply nl_mapM, nl_value_of.
Qed.
Section NoLdap.
  Context {ctx cls obj : Type}.
  Variable lookup : ctx -> Z -> option cls.
  Variable inh : ctx -> ctx.
  Variable F : cls -> Z -> bytes -> ctx -> res obj.
  Hypothesis HF : forall k i x d, nl (F k i x d).
  Lemma dec_nl c m : nl (berDecodeObject lookup inh F c m).
  Proof.
    unfold berDecodeObject. destruct m as [|b m]; [nlc|].
    destruct (berHeader (b :: m)) as [[[i x] n]|e] eqn:E; cbn [bind].
    - destruct (lookup c i); [|nlc]. apply nl_bind; [apply HF|intros; apply nl_ok].
    - apply berHeader_err in E. subst. nlc.
  Qed.
  Lemma decs_nl m c : nl (berDecodeMultiple lookup inh F m c).
  Proof.
    unfold berDecodeMultiple. generalize (length m) as fuel. intros fuel. revert m.
    induction fuel as [|f IH]; intros [|b l]; cbn [berDecodeMultiple_loop]; try nlc.
    apply nl_bind; [apply dec_nl|]. intros [o n]. destruct (negb (n <=? zlen (b :: l))); [nlc|].
    apply nl_bind; [apply IH|intros; apply nl_ok].
  Qed.
End NoLdap.
Ltac nlt :=
  repeat first
    [ apply nl_ok | apply nl_ber2int | apply nl_ext_parts | apply nl_bind; [|intros] | apply nl_guard; congruence
    | apply nl_value_of | apply nl_data_of | apply nl_iter_of | apply nl_nth | apply nl_as_bytes
    | apply nl_mapM; intros; first [apply nl_value_of | apply nl_control_tuple | apply nl_entry_attr]
    | match goal with
      | |- nl (Err _) => intros ?; discriminate
      | |- nl (match ?x with _ => _ end) => destruct x
      | |- nl (let (_, _) := ?x in _) => destruct x
      end ].
Lemma fromBER_nl f : forall k tag content d, nl (fromBER f k tag content d).
Proof.
  induction f as [|f IH]; intros k tag content d; [intros c; discriminate|].
  assert (HM : forall c, nl (berDecodeMultiple lookup_id inherit (fromBER f) content c)) by (intros; now apply decs_nl).
  assert (HO : forall c, nl (berDecodeObject lookup_id inherit (fromBER f) c content)) by (intros; now apply dec_nl).
  destruct k; cbn [fromBER]; repeat first [apply HM | apply HO | progress nlt].
Qed.

(** ** What was written could be encoded *)
Lemma w_str_bytes t v w : w_str t v = Ok w -> exists b, v = VBytes b.
Proof. destruct v; cbn; try discriminate. eauto. Qed.
Lemma w_strs_bytes t vs ws : mapM (fun p => p) (map (w_str t) vs) = Ok ws -> exists bs, vs = map VBytes bs.
Proof.
  revert ws. induction vs as [|v vs IH]; intros ws; cbn [map mapM]; [exists []; reflexivity|].
  destruct (w_str t v) eqn:E; [|discriminate]. cbn [bind]. destruct (mapM (fun p => p) (map (w_str t) vs)); [|discriminate]. intros _.
  destruct (w_str_bytes _ _ _ E) as (b & ->). destruct (IH _ eq_refl) as (bs & ->). now exists (b :: bs).
Qed.
Lemma w_seq_parts tag parts w : w_seq tag parts = Ok w -> exists ps, mapM (fun p => p) parts = Ok ps.
Proof. unfold w_seq. destruct (mapM (fun p => p) parts); [eauto|discriminate]. Qed.
Lemma mapM_cons_inv {A B} (f : A -> res B) x l ys : mapM f (x :: l) = Ok ys -> exists y r, f x = Ok y /\ mapM f l = Ok r.
Proof. cbn [mapM]. destruct (f x); [|discriminate]. cbn [bind]. destruct (mapM f l); [|discriminate]. eauto. Qed.
Lemma entry_wire_shape dn ats w : toWire (OSearchEntry (class_tag KSearchEntry) dn ats) = Ok w ->
  exists b l, OSearchEntry (class_tag KSearchEntry) dn ats = response_obj (SearchEntry b l).
Proof.
  cbn [toWire]. intros H. apply w_seq_parts in H as (ps & H). apply mapM_cons_inv in H as (y & r & H1 & H2).
  apply mapM_cons_inv in H2 as (y2 & r2 & H2 & _). apply w_str_bytes in H1 as (b & ->). apply w_seq_parts in H2 as (qs & H2).
  assert (exists l, ats = map (fun a => (VBytes (fst a), map VBytes (snd a))) l) as (l & ->).
  { revert qs H2. induction ats as [|(a & vs) ats IH]; intros qs H; [exists []; reflexivity|].
    cbn [map] in H. apply mapM_cons_inv in H as (z & rr & H1 & H3). destruct (IH _ H3) as (l & ->).
    apply w_seq_parts in H1 as (zs & H1). apply mapM_cons_inv in H1 as (z1 & r1 & K1 & K2). apply mapM_cons_inv in K2 as (z2 & r3 & K2 & _).
    apply w_str_bytes in K1 as (k & ->). apply w_seq_parts in K2 as (us & K2). apply w_strs_bytes in K2 as (bs & ->).
    exists ((k, bs) :: l). reflexivity. }
  exists b, l. reflexivity.
Qed.
Lemma msg_id_int t id op w : toWire (OMessage t id op None) = Ok w -> exists i, id = VInt i.
Proof.
  cbn [toWire opt_part app]. intros H. apply w_seq_parts in H as (ps & H). apply mapM_cons_inv in H as (y & r & H & _).
  destruct id; cbn in H; try discriminate. eauto.
Qed.
Lemma msg_op_wire t id op w : toWire (OMessage t id op None) = Ok w -> exists u, toWire op = Ok u.
Proof.
  cbn [toWire opt_part app]. intros H. apply w_seq_parts in H as (ps & H). apply mapM_cons_inv in H as (y & r & _ & H).
  apply mapM_cons_inv in H as (u & _ & H & _). eauto.
Qed.

(** An event that writes an entry under the id *)
Definition entry_event (id : pv) (ev : sevent) : Prop :=
  exists i dn attrs, id = VInt i /\ sends ev i (SearchEntry dn attrs).
Lemma queue_entry id dn ats ev : queue id (OSearchEntry (class_tag KSearchEntry) dn ats) = Ok ev -> entry_event id ev.
Proof.
  unfold queue. destruct (toWire _) as [b|] eqn:E; [|discriminate]. cbn [bind]. intros H. apply Ok_inj in H. subst ev.
  destruct (msg_id_int _ _ _ _ E) as (i & ->). destruct (msg_op_wire _ _ _ _ E) as (u & U).
  destruct (entry_wire_shape _ _ _ U) as (x & l & S). exists i, x, l. split; [reflexivity|]. exists b. rewrite <- S. split; [exact E|reflexivity].
Qed.

(** ** Walking keeps what the callback keeps *)
Section WalkInv.
  Context {St : Type}.
  Variable cb : ref -> St -> St * option exn.
  Variable h : heap.
  Variable P : St -> Prop.

  Lemma subtree_inv depth : forall r s, (forall c s, below h r c -> P s -> P (fst (cb c s))) -> P s -> P (fst (subtree cb depth h r s)).
  Proof.
    induction depth as [|depth IH]; intros r s H Ps; [exact Ps|]. cbn [subtree].
    pose proof (H r s (below_refl h r) Ps) as P1. destruct (cb r s) as (s' & [x|]) eqn:C; [exact P1|]. cbn [fst] in P1.
    destruct (nth_error h r) as [n|] eqn:N; [|exact P1]. cbn [fst].
    assert (KD : forall k c, In (k, c) (rev (n_children n)) -> In c (kids h r)).
    { intros k c J. unfold kids. rewrite N. apply in_rev in J. apply (in_map snd) in J. exact J. }
    clear C. revert s' P1 KD. induction (rev (n_children n)) as [|(k & c) cs IHc]; intros s' P1 KD; [exact P1|].
    assert (P (fst (subtree cb depth h c s'))) as P2.
    { apply IH; [|exact P1]. intros c' s1 B. apply H. apply (below_step h r c c'); [exact (KD k c (or_introl eq_refl))|exact B]. }
    destruct (subtree cb depth h c s') as (s1 & [x|]); cbn [fst] in P2; [exact P2|]. apply IHc; [exact P2|]. intros k' c' J. apply (KD k'). now right.
  Qed.
  Lemma each_child_inv cs : forall s, (forall c s, In c (map snd cs) -> P s -> P (fst (cb c s))) -> P s -> P (fst (each_child cb cs s)).
  Proof.
    induction cs as [|(k & c) cs IH]; intros s H Ps; [exact Ps|]. cbn [each_child].
    pose proof (H c s (or_introl eq_refl) Ps) as P1. destruct (cb c s) as (s1 & [x|]); [exact P1|]. apply IH; [|exact P1].
    intros c' s' J. apply H. now right.
  Qed.
End WalkInv.

(** ** The shape of every answer *)
Section Shape.
  Variable lower : str -> str.
  Variable io : Z -> Z -> res Z.
  Variable sha : bytes -> bytes.
  Variable oc_first pw_first : bool.
  Variable odd_match : obj -> entry -> res bool.
  Variable text : exn -> bytes.
  Variable depth : nat.
  Notation raise := (raise text).
  Notation try := (try text).

  Lemma try_ind {A} (P : hres -> Prop) s (r : res A) k :
    (forall x, r = Err x -> P (raise s x)) -> (forall a, r = Ok a -> P (k a)) -> P (try s r k).
  Proof. unfold ServerModel.try. destruct r; auto. Qed.

  Definition resp_cls (k : rkind) : cls :=
    match k with
    | RBind => KBindResp | RSearch => KSearchDone | RModify => KModResp | RAdd => KAddResp | RDelete => KDelResp
    | RModifyDN => KModDNResp | RCompare => KCmpResp | _ => KExtResp
    end.
  Definition made (k : rkind) (o : obj) (code : Z) (d m : pv) : Prop :=
    match k with
    | RExtended => exists n, o = ext_obj code m n /\ d = VBytes [] /\ (n = VNone \/ n = VBytes pw_oid)
    | RUnbind | RAbandon => False
    | _ => o = res_obj (resp_cls k) code d m
    end.

  Section One.
    Variable s0 : srv.
    Variable req : obj.
    Definition good_dn (d : pv) : Prop := dns_encodable (v_heap s0) -> exists b, d = VBytes b /\
      (b = [] \/ exists c n, nth_error (v_heap s0) c = Some n /\ utf8_encode (dn_text (n_dn n)) = Ok b).
    Definition good_msg (m : pv) : Prop := not_nonleaf_delete lower io depth s0 req -> exists b, m = VBytes b /\ said text b.
    Lemma good_dn_0 : good_dn (VBytes []). Proof. intros _. eauto. Qed.
    Lemma good_msg_0 : good_msg (VBytes []). Proof. intros _. exists []. split; [reflexivity|now left]. Qed.
    Lemma good_msg_t x : good_msg (VBytes (text x)). Proof. intros _. exists (text x). split; [reflexivity|right; eauto]. Qed.
    Lemma good_msg_s m : said text m -> good_msg (VBytes m). Proof. intros S _. eauto. Qed.
    Definition hshape (id : pv) (k : rkind) (h : hres) : Prop :=
      let '(s', w, out) := h in
      (forall ev, In ev w -> entry_event id ev) /\ (is_search req \/ w = []) /\
      match out with
      | Return None => False
      | Return (Some o) => exists code d m, made k o code d m /\ good_dn d /\ good_msg m
      | Raise x m => good_msg m
      end.
    Lemma hs_raise id k s x : hshape id k (raise s x).
    Proof. unfold ServerModel.raise, hshape. split; [intros ? []|]. split; [now right|apply good_msg_t]. Qed.
    Lemma hs_give id k s o code d m : made k o code d m -> good_dn d -> good_msg m -> hshape id k (give s o).
    Proof. unfold give, hshape. intros. split; [intros ? []|]. split; [now right|eauto 6]. Qed.
    Lemma hs_try id k {A} s (r : res A) f : (forall a, r = Ok a -> hshape id k (f a)) -> hshape id k (try s r f).
    Proof. intros. apply try_ind; [intros; apply hs_raise|assumption]. Qed.
  End One.
  Ltac ht := apply hs_try; intros ? ?.
  Ltac hg := (eapply hs_give; [cbn [made]; first [reflexivity | eexists; split; [reflexivity|split; [reflexivity|eauto]]]
                              |apply good_dn_0|first [apply good_msg_0 | apply good_msg_t | apply good_msg_s; assumption]]).

  Lemma entry_of_ok s r e : entry_of s r = Ok e -> exists n, nth_error (v_heap s) r = Some n /\ n_entry n = e.
  Proof. unfold entry_of. destruct (deref (v_heap s) r) eqn:D; [|discriminate]. cbn [bind]. intros H. apply Ok_inj in H. apply deref_ok in D. eauto. Qed.

  Lemma shape_bind s id t v dn auth cs : hshape s (OBindReq t v dn auth) id RBind (handle_bind lower io sha pw_first text depth s v dn auth cs).
  Proof.
    unfold handle_bind. destruct v as [|[|[[p|p|]|p|]|p]|]; try apply hs_raise.
    ht.
    assert (K : hshape s (OBindReq t (VInt 3) dn auth) id RBind (try s (to_dn io dn) (fun d =>
            match lookup lower depth (v_heap s) (v_root s) d with
            | Err (ELdap 32) => raise s EInvalidCredentials
            | Err x => raise s x
            | Ok r =>
                try s (auth_bytes auth) (fun pw =>
                try s (entry_of s r) (fun e =>
                try s (entry_bind sha lower pw_first pw e) (fun _ =>
                give (set_bound s (Some r)) (res_obj KBindResp 0 (pv_text (dn_text (e_dn e))) (VBytes [])))))
            end))).
    { ht. destruct (lookup lower depth (v_heap s) (v_root s) a0) as [r|x].
      - ht. ht. ht. eapply hs_give; [reflexivity| |apply good_msg_0]. intros E. destruct (entry_of_ok _ _ _ H2) as (n & N & <-).
        destruct (E r n N) as (b & B). unfold pv_text. fold (n_dn n). rewrite B. eauto 8.
      - assert (forall x, hshape s (OBindReq t (VInt 3) dn auth) id RBind (raise s x)) by (intros; apply hs_raise).
        destruct x; try apply hs_raise. repeat match goal with |- context [match ?c with _ => _ end] => destruct c end; apply hs_raise. }
    destruct dn as [|z|[|c b]]; try exact K. hg.
  Qed.

  Lemma visit_events id f attrs h r w : (forall ev, In ev w -> entry_event id ev) ->
    forall ev, In ev (fst (visit lower oc_first odd_match id f attrs h r w)) -> entry_event id ev.
  Proof.
    intros W ev. unfold visit. destruct (deref h r) as [n|]; cbn [bind]; [|apply W].
    destruct (matchf _ _ _ _) as [[|]|]; cbn [bind fst]; [|rewrite app_nil_r; apply W|apply W].
    destruct (entry_response _ _ _ _) as [o|] eqn:R; cbn [bind fst]; [|apply W].
    destruct (queue id o) as [e|] eqn:Q; cbn [bind fst]; [|apply W].
    intros I. apply in_app_iff in I as [I|[<-|[]]]; [now apply W|].
    unfold entry_response in R. match type of R with bind ?x _ = _ => destruct x end; [|discriminate]. cbn [bind] in R. apply Ok_inj in R. subst o.
    exact (queue_entry _ _ _ _ Q).
  Qed.
  Lemma walk_events id f attrs scope h r : forall ev, In ev (fst (walk lower oc_first odd_match depth id f attrs scope h r)) -> entry_event id ev.
  Proof.
    unfold walk. destruct scope as [|[|[p|[p|p|]|]|p]|]; try (intros ? []).
    - apply visit_events. intros ? [].
    - apply (subtree_inv _ h (fun w => forall ev, In ev w -> entry_event id ev)); [|intros ? []]. intros c w _ W. now apply visit_events.
    - destruct (nth_error h r) as [n|]; [|intros ? []].
      apply (each_child_inv _ (fun w => forall ev, In ev w -> entry_event id ev)); [|intros ? []]. intros c w _ W. now apply visit_events.
  Qed.
  Lemma search_error_made x : exists code m, search_error text x = res_obj KSearchDone code (VBytes []) (VBytes m) /\ said text m.
  Proof. unfold said. destruct x; cbn; eauto 7. Qed.
  Lemma compare_error_made x : exists code m, compare_error text x = res_obj KCmpResp code (VBytes []) (VBytes m) /\ said text m.
  Proof. unfold said. destruct x; cbn; eauto 7. Qed.
  Lemma shape_search s id t base scope a b c d f attrs cs :
    hshape s (OSearchReq t base scope a b c d f attrs) id RSearch (handle_search lower io oc_first odd_match text depth s id base scope f attrs cs).
  Proof.
    unfold handle_search. ht. ht. destruct a1.
    - unfold handle_root_dse. ht. ht. split; [|split; [now left|]].
      + intros ev [<-|[]]. exact (queue_entry _ _ _ _ H2).
      + exists 0, (VBytes []), (VBytes []). split; [reflexivity|]. split; [apply good_dn_0|apply good_msg_0].
    - ht. destruct (lookup lower depth (v_heap s) (v_root s) a1) as [r|x].
      + pose proof (walk_events id f attrs scope (v_heap s) r) as W.
        destruct (walk lower oc_first odd_match depth id f attrs scope (v_heap s) r) as (w & [x|]); cbn [fst] in W.
        * split; [exact W|]. split; [now left|]. destruct (search_error_made x) as (code & m & -> & SM).
          exists code, (VBytes []), (VBytes m). split; [reflexivity|]. split; [apply good_dn_0|now apply good_msg_s].
        * split; [exact W|]. split; [now left|]. exists 0, (VBytes []), (VBytes []). split; [reflexivity|]. split; [apply good_dn_0|apply good_msg_0].
      + destruct (search_error_made x) as (code & m & -> & SM). hg.
  Qed.
  Lemma shape_compare s id t dn ava cs : hshape s (OCmpReq t dn ava) id RCompare (handle_compare lower io odd_match text depth s dn ava cs).
  Proof.
    unfold handle_compare. ht. ht. match goal with |- context [match ?r with Ok _ => _ | Err _ => _ end] => destruct r as [b|x] end; [hg|].
    destruct (compare_error_made x) as (code & m & -> & SM). hg.
  Qed.
  Lemma shape_delete s id t dn cs : hshape s (OStr KDelReq t dn) id RDelete (handle_delete lower io text depth s (VBytes dn) cs).
  Proof.
    unfold handle_delete. ht. ht. ht. unfold to_dn in H0. destruct (utf8_decode dn) as [u|] eqn:U; [|discriminate]. cbn [bind] in H0.
    destruct (delete (v_heap s) a1) as [(h & x)|x] eqn:D; [hg|]. split; [intros ? []|]. split; [now right|].
    intros N. cbn in N. assert (X : x <> ELdap 66).
    { intros ->. unfold delete in D. destruct (deref (v_heap s) a1) as [n|] eqn:E; cbn [bind] in D.
      - pose proof E as E'. apply deref_ok in E'. specialize (N _ _ _ _ U H0 H1 E').
        destruct (n_parent n) as [p|]; [|discriminate]. destruct N as [N|N]; [discriminate|]. rewrite N in D.
        destruct (n_dn n) as [|rd up]; [discriminate|]. unfold delete_child in D.
        unfold deref in D. destruct (nth_error (v_heap s) p); cbn [bind] in D; [|discriminate].
        destruct (key_get _ _); discriminate.
      - unfold deref in E. destruct (nth_error (v_heap s) a1); [discriminate|]. injection E as <-. discriminate. }
    assert (G : delete_msg text x = VBytes (text x)).
    { unfold delete_msg. destruct x; try reflexivity. repeat match goal with |- context [match ?c with _ => _ end] => destruct c end; try reflexivity. contradiction. }
    rewrite G. exists (text x). split; [reflexivity|right; eauto].
  Qed.
  Lemma shape_add s id t dn attrs cs : hshape s (OAddReq t dn attrs) id RAdd (handle_add lower io text depth s dn attrs cs).
  Proof. unfold handle_add. ht. ht. ht. destruct a1; [apply hs_raise|]. ht. ht. ht. destruct a4. hg. Qed.
  Lemma shape_modify_dn s id t dn a b c cs : hshape s (OModDNReq t dn a b c) id RModifyDN (handle_modify_dn lower io text depth s dn a b c cs).
  Proof.
    unfold handle_modify_dn. ht. ht. ht. destruct (negb (truthy b)); [apply hs_raise|]. ht. ht.
    match goal with |- context [move ?l ?d ?h ?r ?x] => destruct (move l d h r x) as (h' & [u|x']) end; [hg|apply hs_raise].
  Qed.
  Lemma shape_modify s id t a b cs : hshape s (OModReq t a b) id RModify (handle_modify lower io text depth s (OModReq t a b) cs).
  Proof.
    unfold handle_modify. ht. ht. destruct a1 as (d & ms). ht. ht. destruct (patch_all lower ms (n_entry a2)) as (e & [u|x]); [hg|apply hs_raise].
  Qed.
  Lemma shape_extended s salt id t name value cs :
    hshape s (OExtReq t name value) id RExtended (handle_extended lower sha pw_first text s salt name value cs).
  Proof.
    unfold handle_extended. ht. destruct name as [|z|n]; try apply hs_raise. destruct (bytes_eqb n pw_oid) eqn:NM; [|apply hs_raise]. apply bytes_eqb_eq in NM. subst n.
    ht. destruct a0 as [|data [|]]; try apply hs_raise. destruct (pw_modify lower sha pw_first s salt data) as (s' & [u|x]); [hg|].
    destruct x; try apply hs_raise. hg.
  Qed.

  Lemma shape_handler s salt id req cs : expects_answer req -> exists k, kind_of req = Some k /\
    hshape s req id k (handler lower io sha oc_first pw_first odd_match text depth s salt id req cs).
  Proof.
    destruct req; cbn [expects_answer]; try contradiction; intros E;
      try (match goal with H : match ?k with _ => _ end |- _ => destruct k; try contradiction end);
      (eexists; split; [reflexivity|]); cbn [handler];
      eauto using shape_bind, shape_search, shape_compare, shape_delete, shape_add, shape_modify_dn, shape_modify, shape_extended.
  Qed.
  Lemma kind_expects req : expects_answer req -> forall kd, kind_of req = Some kd -> kd <> RUnbind /\ kd <> RAbandon.
  Proof.
    destruct req; cbn [expects_answer kind_of]; try contradiction; intros E kd; try (intros [= <-]; split; discriminate).
    destruct k; try contradiction. intros [= <-]. split; discriminate.
  Qed.
  Lemma on_error_made k x m : k <> RUnbind -> k <> RAbandon -> exists code, made k (on_error k x m) code (VBytes []) m.
  Proof.
    intros N1 N2. assert (forall c, made k (fail_obj k c m) c (VBytes []) m).
    { intros c. destruct k; try contradiction; try reflexivity. cbn. eauto 6. }
    destruct x; cbn [on_error]; eauto.
  Qed.

  Notation handle := (handle lower io sha oc_first pw_first odd_match text depth).
  Notation handler := (handler lower io sha oc_first pw_first odd_match text depth).
  Notation serve := (serve lower io sha oc_first pw_first odd_match text depth).

  Lemma handle_eq s salt tag id req cs k : kind_of req = Some k -> id <> VInt 0 ->
    handle s salt (OMessage tag id req cs) =
      match handler s salt id req cs with
      | (s', w, Return o) => Ok (s', w ++ final id o)
      | (s', w, Raise x msg) => Ok (s', w ++ final id (Some (on_error k x msg)))
      end.
  Proof. intros K N. unfold ServerModel.handle. rewrite K. destruct id as [|[| |]|]; try reflexivity. contradiction. Qed.

  (** Every request that expects an answer: entries, then one final response *)
  Lemma handle_shape s salt tag id req cs : expects_answer req -> id <> VInt 0 ->
    exists k s' w o code d m, kind_of req = Some k /\ handle s salt (OMessage tag id req cs) = Ok (s', w ++ final id (Some o)) /\
      (forall ev, In ev w -> entry_event id ev) /\ (is_search req \/ w = []) /\ made k o code d m /\ good_dn s d /\ good_msg s req m.
  Proof.
    intros E N. destruct (shape_handler s salt id req cs E) as (k & K & S). rewrite (handle_eq _ _ _ _ _ _ k K N).
    destruct (handler s salt id req cs) as ((s' & w) & [[o|]|x m]); cbn [hshape] in S; destruct S as (W & T & S).
    - destruct S as (code & d & m & M & D & G). exists k, s', w, o, code, d, m. auto 8.
    - contradiction.
    - destruct (kind_expects req E k K) as (N1 & N2). destruct (on_error_made k x m N1 N2) as (code & M).
      exists k, s', w, (on_error k x m), code, (VBytes []), m. split; [exact K|]. split; [reflexivity|]. split; [exact W|]. split; [exact T|].
      split; [exact M|]. split; [apply good_dn_0|exact S].
  Qed.
  Lemma made_response req k o code d m : expects_answer req -> kind_of req = Some k -> made k o code (VBytes d) (VBytes m) ->
    exists r, o = response_obj r /\ final_for req r /\ result_of r = mkResult code d m /\
      match r with BindResponse _ c => c = None | ExtendedResponse _ n v => (n = None \/ n = Some pw_oid) /\ v = None | _ => True end.
  Proof.
    intros E K M.
    destruct req; cbn [expects_answer kind_of] in *; try contradiction; try (injection K as <-); cbn [made resp_cls] in M.
    all: try (destruct k0; try contradiction; injection K as <-; cbn [made resp_cls] in M).
    all: try (subst o;
      solve [ exists (BindResponse (mkResult code d m) None); cbn; auto | exists (SearchDone (mkResult code d m)); cbn; auto
            | exists (ModifyResponse (mkResult code d m)); cbn; auto | exists (AddResponse (mkResult code d m)); cbn; auto
            | exists (DeleteResponse (mkResult code d m)); cbn; auto | exists (ModifyDNResponse (mkResult code d m)); cbn; auto
            | exists (CompareResponse (mkResult code d m)); cbn; auto ]).
    destruct M as (n & -> & D & [->| ->]); injection D as ->.
    - exists (ExtendedResponse (mkResult code [] m) None None). cbn. auto 10.
    - exists (ExtendedResponse (mkResult code [] m) (Some pw_oid) None). cbn. auto 10.
  Qed.
  Lemma final_sends i r : sane i r -> exists ev, final (VInt i) (Some (response_obj r)) = [ev] /\ sends ev i r.
  Proof.
    intros S. destruct (response_encodes i r None S) as (b & B). exists (SWrite (VInt i) (response_obj r) b). split; [|exists b; auto].
    unfold final, queue. unfold message_obj in B. cbn [option_map] in B. rewrite B. reflexivity.
  Qed.
  Lemma final_one id o : exists ev, final id (Some o) = [ev] /\ ((exists x, ev = SDropped x) \/ exists b, ev = SWrite id o b).
  Proof.
    unfold final, queue. destruct (toWire _) as [b|x]; cbn [bind]; eexists; (split; [reflexivity|]); eauto.
  Qed.

  Lemma answered s salt tag i req cs : expects_answer req -> i <> 0 -> dns_encodable (v_heap s) -> not_nonleaf_delete lower io depth s req ->
    exists s' w r, handle s salt (OMessage tag (VInt i) req cs) = Ok (s', w) /\ answer text (v_heap s) i req w r.
  Proof.
    intros E N D L. assert (N' : VInt i <> VInt 0) by congruence.
    destruct (handle_shape s salt tag (VInt i) req cs E N') as (k & s' & w & o & code & d & m & K & H & W & T & M & GD & GM).
    destruct (GD D) as (bd & -> & BD). destruct (GM L) as (bm & -> & BM). destruct (made_response req k o code bd bm E K M) as (r & -> & F & R & X).
    exists s', (w ++ final (VInt i) (Some (response_obj r))), r. split; [exact H|]. split; [exact F|]. split; [unfold plain; rewrite R; cbn; auto|].
    destruct (final_one (VInt i) (response_obj r)) as (ev & EV & _). exists w, ev. rewrite EV. split; [reflexivity|]. split; [|split].
    - intros e I. destruct (W e I) as (j & dn & ats & J & Q). injection J as <-. eauto.
    - destruct req; try exact I; destruct T as [T|T]; try contradiction; exact T.
    - intros S. destruct (final_sends i r S) as (ev' & EV' & Q). rewrite EV in EV'. injection EV' as ->. exact Q.
  Qed.

  Lemma made_final_op req k o code d m : expects_answer req -> kind_of req = Some k -> made k o code d m -> final_op req o.
  Proof.
    intros E K M. destruct req; cbn [expects_answer kind_of] in *; try contradiction; try (injection K as <-); cbn [made resp_cls] in M.
    all: try (destruct k0; try contradiction; injection K as <-; cbn [made resp_cls] in M).
    all: try (subst o; exact I). destruct M as (n & -> & _). exact I.
  Qed.
  Lemma handle_exchange s salt m s' w : handle s salt m = Ok (s', w) -> exchange m w.
  Proof.
    destruct m as [| | | | | | | | |tag id op controls| | | | | | | | | | | |]; try discriminate. intros H. exists tag, id, op, controls. split; [reflexivity|].
    destruct (kind_of op) as [k|] eqn:K; [|cbn in H; rewrite K in H; discriminate].
    assert (ZD : id = VInt 0 \/ id <> VInt 0).
    { destruct id as [|z|]; [right; discriminate| |right; discriminate]. destruct (Z.eq_dec z 0) as [->|]; [now left|right; congruence]. }
    destruct ZD as [->|N].
    - left. split; [reflexivity|]. cbn in H. rewrite K in H. congruence.
    - right. assert (ED : expects_answer op \/ ~ expects_answer op).
      { destruct op; cbn [expects_answer]; auto. destruct k0; auto. }
      destruct ED as [E|E].
      + left. split; [exact N|]. split; [exact E|].
        destruct (handle_shape s salt tag id op controls E N) as (k' & s1 & w1 & o & code & d & m & K' & H' & W & T & M & _).
        rewrite H in H'. apply Ok_inj in H'. assert (WE : w = w1 ++ final id (Some o)) by congruence. destruct (final_one id o) as (ev & EV & P). rewrite WE, EV.
        exists w1, ev. split; [reflexivity|]. split; [|split; [exact T|]].
        * destruct P as [P|(b & P)]; [now left|right]. exists o, b. split; [exact P|]. exact (made_final_op op k' o code d m E K' M).
        * exact W.
      + right. split; [exact N|]. split; [exact E|]. rewrite (handle_eq _ _ _ _ _ _ k K N) in H.
        destruct op; cbn [kind_of expects_answer] in *; try discriminate; try (exfalso; exact (E I)).
        all: destruct k0; try discriminate; try (exfalso; exact (E I)); cbn [ServerModel.handler] in H.
        * destruct (final_one id (ext_obj 2 (VBytes (B "Unknown request")) (VBytes notice_oid))) as (ev & EV & _).
          unfold handle_unknown, give in H. cbn [app] in H. rewrite EV in H. apply Ok_inj in H. injection H as _ <-. eauto.
        * unfold handle_unbind in H. apply Ok_inj in H. injection H as _ <-. cbn. eauto.
  Qed.
  Lemma handle_err s salt m x : handle s salt m = Err x -> not_request m.
  Proof.
    destruct m as [| | | | | | | | |tag id op controls| | | | | | | | | | | |]; try (intros; exact I). cbn [not_request]. unfold ServerModel.handle. destruct (kind_of op) as [k|] eqn:K.
    - intros H. exfalso. destruct id as [|[| |]|]; try discriminate;
      match goal with H : match ?h with _ => _ end = _ |- _ => destruct h as ((? & ?) & [|]); discriminate end.
    - intros _. destruct op; cbn in K; try discriminate; repeat split; try (intros; discriminate); try (intros []).
      all: destruct k; try discriminate; cbn; try tauto; intros; congruence.
  Qed.
  Lemma serve_groups ms : forall s s' w x, serve s ms = (s', w, x) -> exists gs, w = concat gs /\
    Forall2 (fun m g => exchange (fst m) g) (firstn (length gs) ms) gs /\
    (x = None -> length gs = length ms) /\ (x <> None -> exists m salt, nth_error ms (length gs) = Some (m, salt) /\ not_request m).
  Proof.
    induction ms as [|(m & salt) ms IH]; intros s s' w x H; cbn [ServerModel.serve] in H.
    - injection H as <- <- <-. exists []. split; [reflexivity|]. split; [constructor|]. split; [reflexivity|congruence].
    - destruct (handle s salt m) as [(s1 & w1)|y] eqn:E.
      + destruct (serve s1 ms) as ((s2 & w2) & y) eqn:E2. injection H as <- <- <-. destruct (IH _ _ _ _ E2) as (gs & -> & F & L1 & L2).
        exists (w1 :: gs). split; [reflexivity|]. split; [constructor; [exact (handle_exchange _ _ _ _ _ E)|exact F]|].
        split; [intros Y; cbn; f_equal; auto|exact L2].
      + injection H as <- <- <-. exists []. split; [reflexivity|]. split; [constructor|]. split; [discriminate|].
        intros _. exists m, salt. split; [reflexivity|exact (handle_err _ _ _ _ E)].
  Qed.

  (** ** Critical controls *)
  Lemma critical_refused cs : has_critical cs -> names_octets cs -> check_list cs = Err (ELdap 12).
  Proof.
    induction cs as [|((t & cr) & v) cs IH]; intros (t0 & c0 & v0 & I & T) N; [destruct I|]. cbn [check_list].
    destruct (truthy cr) eqn:C; [destruct (N t cr v (or_introl eq_refl)) as (b & ->); reflexivity|].
    destruct I as [[= -> -> ->]|I]; [congruence|]. apply IH; [exists t0, c0, v0; auto|]. intros t1 c1 v1 I1. apply (N t1 c1 v1). now right.
  Qed.
  Lemma check_ok cs : no_critical cs -> checkControls cs = Ok tt.
  Proof.
    destruct cs as [l|]; [|reflexivity]. cbn. induction l as [|((t & cr) & v) l IH]; intros N; [reflexivity|]. cbn [check_list].
    rewrite (N t cr v (or_introl eq_refl)). apply IH. intros t1 c1 v1 I1. apply (N t1 c1 v1). now right.
  Qed.
  Definition version3 (req : obj) : Prop := match req with OBindReq _ v _ _ => v = VInt 3 | _ => True end.
  Lemma controls_first s salt id req cs x : expects_answer req -> version3 req -> checkControls cs = Err x ->
    handler s salt id req cs = raise s x.
  Proof.
    destruct req; cbn [expects_answer version3]; try contradiction; intros E V C.
    1: destruct k; try contradiction.
    all: cbn [ServerModel.handler]; unfold handle_bind, handle_search, handle_modify, handle_add, handle_delete, handle_modify_dn, handle_compare, handle_extended, ServerModel.try.
    all: try (rewrite V); rewrite C; reflexivity.
  Qed.
  Lemma refused s salt tag i req cs : expects_answer req -> version3 req -> i <> 0 -> has_critical cs -> names_octets cs ->
    exists fin r, handle s salt (OMessage tag (VInt i) req (Some cs)) = Ok (s, [fin]) /\ final_for req r /\
      r_code (result_of r) = 12 /\ r_dn (result_of r) = [] /\ plain text (v_heap s) r /\ (sane i r -> sends fin i r).
  Proof.
    intros E V N H O. destruct (shape_handler s salt (VInt i) req (Some cs) E) as (k & K & _).
    assert (N' : VInt i <> VInt 0) by congruence. rewrite (handle_eq _ _ _ _ _ _ k K N').
    rewrite (controls_first s salt (VInt i) req (Some cs) (ELdap 12) E V (critical_refused cs H O)). cbn [ServerModel.raise].
    destruct (kind_expects req E k K) as (N1 & N2).
    assert (M : made k (on_error k (ELdap 12) (VBytes (text (ELdap 12)))) 12 (VBytes []) (VBytes (text (ELdap 12)))).
    { destruct k; try contradiction; try reflexivity. cbn. eauto 6. }
    destruct (made_response req k _ 12 [] (text (ELdap 12)) E K M) as (r & RO & F & R & X).
    cbn [app]. rewrite RO. destruct (final_one (VInt i) (response_obj r)) as (ev & EV & _). rewrite EV. exists ev, r.
    split; [reflexivity|]. split; [exact F|]. split; [now rewrite R|]. split; [now rewrite R|]. split; [unfold plain; rewrite R; cbn; split; [right; eauto|auto]|]. intros S. destruct (final_sends i r S) as (ev' & EV' & Q).
    rewrite EV in EV'. injection EV' as ->. exact Q.
  Qed.

  (** ** Who the session is *)
  Definition keeps (b : option ref) (h : hres) : Prop := let '(s', _, _) := h in v_bound s' = b.
  Lemma keeps_raise b s x : v_bound s = b -> keeps b (raise s x). Proof. auto. Qed.
  Lemma keeps_give b s o : v_bound s = b -> keeps b (give s o). Proof. auto. Qed.
  Lemma keeps_try b {A} s (r : res A) f : v_bound s = b -> (forall a, keeps b (f a)) -> keeps b (try s r f).
  Proof. intros. apply try_ind; intros; [now apply keeps_raise|auto]. Qed.
  Lemma pw_modify_bound s salt data s' o : pw_modify lower sha pw_first s salt data = (s', o) -> v_bound s' = v_bound s.
  Proof.
    unfold pw_modify. intros H.
    match type of H with match ?x with _ => _ end = _ => destruct x as [s1|] eqn:E end; injection H as <- <-; [|reflexivity].
    destruct data; try discriminate. cbn [bind] in E. destruct (pw_parts _ _) as [p|]; [|discriminate]. cbn [bind] in E.
    destruct (v_bound s) as [r|] eqn:B; [|discriminate]. destruct (deref (v_heap s) r) as [n|]; [|discriminate]. cbn [bind] in E.
    destruct (match p_user p with Some _ => _ | None => _ end) as [sm|]; [|discriminate]. cbn [bind] in E.
    destruct (negb sm); [discriminate|]. destruct (p_old p); [discriminate|]. destruct (p_new p); [|discriminate].
    destruct (setPassword _ _ _ _ _ _); [|discriminate]. cbn [bind] in E. apply Ok_inj in E. subst s1. cbn. exact B.
  Qed.
  Lemma handler_keeps s salt id req cs : (forall t v d a, req <> OBindReq t v d a) -> keeps (v_bound s) (handler s salt id req cs).
  Proof.
    intros NB. destruct req; try reflexivity; cbn [ServerModel.handler].
    all: repeat match goal with |- keeps _ (match ?k with _ => _ end) => destruct k; try reflexivity end.
    all: try (exfalso; now apply (NB tag version dn auth)).
    - unfold handle_delete. repeat (apply keeps_try; [reflexivity|intros]). destruct (delete _ _) as [(h & x)|x]; reflexivity.
    - unfold handle_search. repeat (apply keeps_try; [reflexivity|intros]). destruct a0.
      + unfold handle_root_dse. repeat (apply keeps_try; [reflexivity|intros]). reflexivity.
      + apply keeps_try; [reflexivity|intros]. destruct (lookup _ _ _ _ _); [|reflexivity].
        destruct (walk _ _ _ _ _ _ _ _ _ _) as (w & [x|]); reflexivity.
    - unfold handle_modify. repeat (apply keeps_try; [reflexivity|intros]). destruct a0 as (d & ms). repeat (apply keeps_try; [reflexivity|intros]).
      destruct (patch_all _ _ _) as (e & [u|x]); reflexivity.
    - unfold handle_add. repeat (apply keeps_try; [reflexivity|intros]). destruct a1; [reflexivity|]. repeat (apply keeps_try; [reflexivity|intros]).
      destruct a4. reflexivity.
    - unfold handle_modify_dn. repeat (apply keeps_try; [reflexivity|intros]). destruct (negb _); [reflexivity|]. repeat (apply keeps_try; [reflexivity|intros]).
      destruct (move _ _ _ _ _) as (h & [u|x]); reflexivity.
    - unfold handle_compare. repeat (apply keeps_try; [reflexivity|intros]).
      match goal with |- keeps _ (match ?x with _ => _ end) => destruct x end; reflexivity.
    - unfold handle_extended. repeat (apply keeps_try; [reflexivity|intros]). destruct requestName; try reflexivity.
      destruct (bytes_eqb b pw_oid); [|reflexivity]. apply keeps_try; [reflexivity|intros]. destruct a0 as [|data [|]]; try reflexivity.
      destruct (pw_modify lower sha pw_first s salt data) as (s' & o) eqn:P. apply pw_modify_bound in P.
      destruct o as [|x]; [exact P|]. destruct x; exact P.
  Qed.
  Lemma bind_step s t v dn auth cs s' w out : handle_bind lower io sha pw_first text depth s v dn auth cs = (s', w, out) ->
    v_heap s' = v_heap s /\ v_root s' = v_root s /\
    (v_bound s' = v_bound s \/ (forall tag id, anonymous (OMessage tag id (OBindReq t v dn auth) cs)) /\ v_bound s' = None \/
     exists r, (forall tag id, authenticates lower io sha depth s (OMessage tag id (OBindReq t v dn auth) cs) r) /\ v_bound s' = Some r).
  Proof.
    intros H. assert (G : forall x, (s', w, out) = raise s x -> v_heap s' = v_heap s /\ v_root s' = v_root s /\ v_bound s' = v_bound s).
    { unfold ServerModel.raise. intros x [= -> _ _]. auto. }
    assert (G' : forall x (P : Prop), raise s x = (s', w, out) -> v_heap s' = v_heap s /\ v_root s' = v_root s /\ (v_bound s' = v_bound s \/ P)).
    { intros x P E. destruct (G x (eq_sym E)) as (? & ? & ?). auto. }
    unfold handle_bind in H. destruct v as [|[|[[p|p|]|p|]|p]|]; try (exact (G' _ _ H)).
    unfold ServerModel.try in H. destruct (checkControls cs); [|exact (G' _ _ H)].
    destruct dn as [|z|[|c b]].
    - cbn [to_dn] in H. exact (G' _ _ H).
    - cbn [to_dn] in H. exact (G' _ _ H).
    - injection H as <- _ _. split; [reflexivity|]. split; [reflexivity|]. right. left. split; [|reflexivity]. intros tag id. now exists tag, id, t, auth, cs.
    - cbn [to_dn] in H. destruct (utf8_decode (c :: b)) as [u|] eqn:U; cbn [bind] in H; [|exact (G' _ _ H)].
      destruct (parse_dn io u) as [d|] eqn:D; [|exact (G' _ _ H)].
      destruct (lookup lower depth (v_heap s) (v_root s) d) as [r|x] eqn:L.
      + destruct (auth_bytes auth) as [pw|] eqn:A; [|exact (G' _ _ H)]. destruct (entry_of s r) as [e|] eqn:E; [|exact (G' _ _ H)].
        destruct (entry_bind sha lower pw_first pw e) as [[]|] eqn:B; [|exact (G' _ _ H)].
        injection H as <- _ _. split; [reflexivity|]. split; [reflexivity|]. right. right. exists r. split; [|reflexivity].
        intros tag id. destruct (entry_of_ok _ _ _ E) as (n & N & <-).
        exists tag, id, t, (c :: b), auth, cs, u, d, n, pw. split; [reflexivity|]. split; [discriminate|].
        split; [exact U|]. split; [exact D|]. split; [exact L|]. split; [exact N|]. split; [exact A|]. exact (bind_sound _ _ _ _ _ B).
      + assert (exists y, raise s y = (s', w, out)) as (y & Y).
        { destruct x; try (eexists; exact H). repeat match goal with H : context [match ?c with _ => _ end] |- _ => destruct c end; eexists; exact H. }
        exact (G' _ _ Y).
  Qed.
  Lemma identity_step s salt m s' w : handle s salt m = Ok (s', w) ->
    v_bound s' = v_bound s \/ (anonymous m /\ v_bound s' = None) \/ (exists r, authenticates lower io sha depth s m r /\ v_bound s' = Some r).
  Proof.
    destruct m as [| | | | | | | | |tag id op controls| | | | | | | | | | | |]; try discriminate.
    destruct (kind_of op) as [k|] eqn:K; [|cbn; rewrite K; discriminate].
    assert (ZD : id = VInt 0 \/ id <> VInt 0).
    { destruct id as [|z|]; [right; discriminate| |right; discriminate]. destruct (Z.eq_dec z 0) as [->|]; [now left|right; congruence]. }
    destruct ZD as [->|N]; [cbn; rewrite K; intros H; apply Ok_inj in H; injection H as <- _; now left|].
    rewrite (handle_eq _ _ _ _ _ _ k K N). intros H.
    assert (BD : (exists t v d a, op = OBindReq t v d a) \/ (forall t v d a, op <> OBindReq t v d a)).
    { destruct op; try (right; intros; discriminate). left. eauto 6. }
    destruct BD as [(t & v & d & a & ->)|NB].
    - cbn [ServerModel.handler] in H. destruct (handle_bind lower io sha pw_first text depth s v d a controls) as ((s1 & w1) & out) eqn:B.
      assert (s1 = s') as -> by (destruct out; congruence). destruct (bind_step s t _ _ _ _ _ _ _ B) as (_ & _ & [P|[(P & Q)|(r & P & Q)]]); eauto 6.
    - pose proof (handler_keeps s salt id op controls NB) as P. destruct (handler s salt id op controls) as ((s1 & w1) & out).
      assert (s1 = s') as -> by (destruct out; congruence). left. exact P.
  Qed.
  Lemma serve_app a : forall s b, serve s (a ++ b) = match serve s a with
    | (s1, w1, None) => let '(s2, w2, x) := serve s1 b in (s2, w1 ++ w2, x)
    | (s1, w1, Some x) => (s1, w1, Some x) end.
  Proof.
    induction a as [|(m & salt) a IH]; intros s b; cbn [ServerModel.serve app]; [now destruct (serve s b) as ((? & ?) & ?)|].
    destruct (handle s salt m) as [(s1 & w1)|x]; [|reflexivity]. rewrite IH. destruct (serve s1 a) as ((s2 & w2) & [x|]); [reflexivity|].
    destruct (serve s2 b) as ((s3 & w3) & x). now rewrite app_assoc.
  Qed.
  (** A session that is somebody has authenticated as them: at some earlier message. *)
  Lemma session_identity ms s s' w x r : v_bound s = None -> serve s ms = (s', w, x) -> v_bound s' = Some r ->
    exists pre m salt post s1 w1, ms = pre ++ (m, salt) :: post /\ serve s pre = (s1, w1, None) /\ authenticates lower io sha depth s1 m r /\
      (forall post1 post2 s2 w2, post = post1 ++ post2 -> serve s (pre ++ (m, salt) :: post1) = (s2, w2, None) -> v_bound s2 = Some r).
  Proof.
    revert s' w x. induction ms as [|(m & salt) ms IH] using rev_ind; intros s' w x N H Q.
    - cbn in H. injection H as <- _ _. congruence.
    - rewrite serve_app in H. destruct (serve s ms) as ((s1 & w1) & [y|]) eqn:S1.
      + injection H as -> _ _. destruct (IH _ _ _ N eq_refl Q) as (pre & m0 & salt0 & post & s2 & w2 & E & SP & A & K).
        exists pre, m0, salt0, (post ++ [(m, salt)]), s2, w2. split; [rewrite E, <- app_assoc; reflexivity|]. split; [exact SP|]. split; [exact A|].
        intros p1 p2 s3 w3 EP S3. destruct p2 as [|q p2] using rev_ind.
        * rewrite app_nil_r in EP. subst p1. rewrite app_comm_cons, app_assoc, <- E, serve_app, S1 in S3. congruence.
        * clear IHp2. rewrite app_assoc in EP. apply app_inj_tail in EP as (EP & _). exact (K p1 p2 s3 w3 EP S3).
      + cbn [ServerModel.serve] in H. destruct (handle s1 salt m) as [(s2 & w2)|y] eqn:HM.
        * injection H as <- _ _. destruct (identity_step _ _ _ _ _ HM) as [P|[(_ & P)|(r' & A & P)]].
          -- rewrite Q in P. destruct (IH _ _ _ N eq_refl (eq_sym P)) as (pre & m0 & salt0 & post & s3 & w3 & E & SP & A & K).
             exists pre, m0, salt0, (post ++ [(m, salt)]), s3, w3. split; [rewrite E, <- app_assoc; reflexivity|]. split; [exact SP|]. split; [exact A|].
             intros p1 p2 s4 w4 EP S4. destruct p2 as [|q p2] using rev_ind.
             ++ rewrite app_nil_r in EP. subst p1. rewrite app_comm_cons, app_assoc, <- E, serve_app, S1 in S4. cbn [ServerModel.serve] in S4. rewrite HM in S4.
                assert (s2 = s4) by congruence. subst s4. exact Q.
             ++ clear IHp2. rewrite app_assoc in EP. apply app_inj_tail in EP as (EP & _). exact (K p1 p2 s4 w4 EP S4).
          -- congruence.
          -- assert (r' = r) by congruence. subst r'. exists ms, m, salt, [], s1, w1. split; [reflexivity|]. split; [exact S1|]. split; [exact A|].
             intros p1 p2 s3 w3 EP S3. symmetry in EP. apply app_eq_nil in EP as (-> & ->). rewrite serve_app, S1 in S3. cbn [ServerModel.serve] in S3.
             rewrite HM in S3. assert (s2 = s3) by congruence. subst s3. exact Q.
        * injection H as <- _ _. destruct (IH _ _ _ N eq_refl Q) as (pre & m0 & salt0 & post & s2 & w2 & E & SP & A & K).
          exists pre, m0, salt0, (post ++ [(m, salt)]), s2, w2. split; [rewrite E, <- app_assoc; reflexivity|]. split; [exact SP|]. split; [exact A|].
          intros p1 p2 s3 w3 EP S3. destruct p2 as [|q p2] using rev_ind.
          -- rewrite app_nil_r in EP. subst p1. rewrite app_comm_cons, app_assoc, <- E, serve_app, S1 in S3. cbn [ServerModel.serve] in S3. rewrite HM in S3. congruence.
          -- clear IHp2. rewrite app_assoc in EP. apply app_inj_tail in EP as (EP & _). exact (K p1 p2 s3 w3 EP S3).
  Qed.

  (** What a bind is answered *)
  Lemma bind_answer s salt tag i t v dn auth cs s' out code d m : i <> 0 ->
    handle_bind lower io sha pw_first text depth s v dn auth cs = (s', [], out) ->
    (out = Return (Some (res_obj KBindResp code (VBytes d) (VBytes m))) \/ exists x, out = Raise x (VBytes m) /\ x = ELdap code /\ d = []) ->
    exists fin, handle s salt (OMessage tag (VInt i) (OBindReq t v dn auth) cs) = Ok (s', [fin]) /\
      (sane i (BindResponse (mkResult code d m) None) -> sends fin i (BindResponse (mkResult code d m) None)).
  Proof.
    intros N H O. assert (N' : VInt i <> VInt 0) by congruence. rewrite (handle_eq s salt tag (VInt i) (OBindReq t v dn auth) cs RBind eq_refl N').
    cbn [ServerModel.handler]. rewrite H. set (r := BindResponse (mkResult code d m) None).
    assert (E : match out with Return o => Ok (s', final (VInt i) o) | Raise x msg => Ok (s', final (VInt i) (Some (on_error RBind x msg))) end = Ok (s', final (VInt i) (Some (response_obj r)))).
    { destruct O as [->|(x & -> & -> & ->)]; reflexivity. }
    destruct (final_one (VInt i) (response_obj r)) as (ev & EV & _). exists ev. split.
    - destruct out; cbn [app]; rewrite E, EV; reflexivity.
    - intros S. destruct (final_sends i r S) as (ev' & EV' & Q). rewrite EV in EV'. injection EV' as ->. exact Q.
  Qed.
  Lemma bind_anonymous s salt tag i t auth cs : i <> 0 -> no_critical cs -> exists fin,
    handle s salt (OMessage tag (VInt i) (OBindReq t (VInt 3) (VBytes []) auth) cs) = Ok (set_bound s None, [fin]) /\
    (sane i (BindResponse (mkResult 0 [] []) None) -> sends fin i (BindResponse (mkResult 0 [] []) None)).
  Proof.
    intros N C. eapply bind_answer; [exact N| |now left]. unfold handle_bind. rewrite (check_ok cs C). reflexivity.
  Qed.
  Section Named.
    Variables (s : srv) (salt : bytes) (tag i t : Z) (b : bytes) (auth : bauth) (cs : option (list (pv * pv * pv))).
    Variables (u : str) (d : dn) (pw : bytes).
    Hypothesis (Hi : i <> 0) (Hb : b <> []) (HC : no_critical cs) (HU : utf8_decode b = Ok u) (HD : parse_dn io u = Ok d) (HA : auth_bytes auth = Ok pw).
    Lemma bind_named_eq : handle_bind lower io sha pw_first text depth s (VInt 3) (VBytes b) auth cs =
      match lookup lower depth (v_heap s) (v_root s) d with
      | Err (ELdap 32) => raise s EInvalidCredentials
      | Err x => raise s x
      | Ok r => try s (entry_of s r) (fun e => try s (entry_bind sha lower pw_first pw e) (fun _ =>
                give (set_bound s (Some r)) (res_obj KBindResp 0 (pv_text (dn_text (e_dn e))) (VBytes []))))
      end.
    Proof.
      unfold handle_bind. rewrite (check_ok cs HC). cbn [ServerModel.try]. unfold ServerModel.try at 1.
      destruct b as [|c b']; [contradiction|]. unfold to_dn. rewrite HU. cbn [bind]. rewrite HD. unfold ServerModel.try at 1. rewrite HA. reflexivity.
    Qed.
    Lemma bind_right r n : lookup lower depth (v_heap s) (v_root s) d = Ok r -> nth_error (v_heap s) r = Some n ->
      dns_encodable (v_heap s) -> (forall x, length (sha x) = 20%nat) ->
      keys_distinct lower (n_entry n) -> passwords_readable lower (n_entry n) -> entry_admits sha lower (n_entry n) pw ->
      exists fin name, handle s salt (OMessage tag (VInt i) (OBindReq t (VInt 3) (VBytes b) auth) cs) = Ok (set_bound s (Some r), [fin]) /\
        utf8_encode (dn_text (n_dn n)) = Ok name /\
        (sane i (BindResponse (mkResult 0 name []) None) -> sends fin i (BindResponse (mkResult 0 name []) None)).
    Proof.
      intros L N E SL KD PR A. destruct (E r n N) as (name & EN).
      destruct (bind_answer s salt tag i t (VInt 3) (VBytes b) auth cs (set_bound s (Some r)) (Return (Some (res_obj KBindResp 0 (VBytes name) (VBytes [])))) 0 name [] Hi) as (fin & H & F).
      - rewrite bind_named_eq, L. unfold entry_of. rewrite (proj2 (deref_ok _ _ _) N). cbn [bind]. unfold ServerModel.try.
        rewrite (bind_complete lower sha pw_first SL pw (n_entry n) KD PR A). unfold give, pv_text. fold (n_dn n). rewrite EN. reflexivity.
      - now left.
      - eauto.
    Qed.
    Lemma bind_wrong r n : lookup lower depth (v_heap s) (v_root s) d = Ok r -> nth_error (v_heap s) r = Some n ->
      passwords_readable lower (n_entry n) -> ~ entry_admits sha lower (n_entry n) pw ->
      exists fin m, m = text (ELdap 49) /\ handle s salt (OMessage tag (VInt i) (OBindReq t (VInt 3) (VBytes b) auth) cs) = Ok (s, [fin]) /\
        (sane i (BindResponse (mkResult 49 [] m) None) -> sends fin i (BindResponse (mkResult 49 [] m) None)).
    Proof.
      intros L N PR A.
      destruct (bind_answer s salt tag i t (VInt 3) (VBytes b) auth cs s (Raise EInvalidCredentials (VBytes (text EInvalidCredentials))) 49 [] (text EInvalidCredentials) Hi) as (fin & H & F).
      - rewrite bind_named_eq, L. unfold entry_of. rewrite (proj2 (deref_ok _ _ _) N). cbn [bind]. unfold ServerModel.try.
        rewrite (bind_refuses lower sha pw_first pw (n_entry n) PR A). reflexivity.
      - right. eauto.
      - eauto.
    Qed.
    Lemma bind_nobody : lookup lower depth (v_heap s) (v_root s) d = Err (ELdap 32) ->
      exists fin m, m = text (ELdap 49) /\ handle s salt (OMessage tag (VInt i) (OBindReq t (VInt 3) (VBytes b) auth) cs) = Ok (s, [fin]) /\
        (sane i (BindResponse (mkResult 49 [] m) None) -> sends fin i (BindResponse (mkResult 49 [] m) None)).
    Proof.
      intros L.
      destruct (bind_answer s salt tag i t (VInt 3) (VBytes b) auth cs s (Raise EInvalidCredentials (VBytes (text EInvalidCredentials))) 49 [] (text EInvalidCredentials) Hi) as (fin & H & F).
      - rewrite bind_named_eq, L. reflexivity.
      - right. eauto.
      - eauto.
    Qed.
  End Named.

  (** ** Password modify *)
  Definition olist {A} (o : option A) : list A := match o with Some a => [a] | None => [] end.
  Definition is_part (o : obj) : Prop := exists c t v, o = OStr c t v /\ (c = KPwUser \/ c = KPwOld \/ c = KPwNew).
  Lemma pw_parts_ok l : forall p0 p, pw_parts l p0 = Ok p <->
    (forall o, In o l -> is_part o) /\ olist (p_user p0) ++ parts_of KPwUser l = olist (p_user p) /\
    olist (p_old p0) ++ parts_of KPwOld l = olist (p_old p) /\ olist (p_new p0) ++ parts_of KPwNew l = olist (p_new p).
  Proof.
    induction l as [|o l IH]; intros p0 p; cbn [pw_parts].
    - cbn [parts_of flat_map]. rewrite !app_nil_r. split.
      + intros H. apply Ok_inj in H. subst. repeat split. intros ? [].
      + intros (_ & U & O & N). f_equal. destruct p0 as [u o n], p as [u' o' n']. cbn in *.
        f_equal; match goal with H : olist ?a = olist ?b |- ?a = ?b => destruct a, b; cbn in H; congruence end.
    - assert (FC : is_part o -> (forall x, In x (o :: l) -> is_part x) <-> (forall x, In x l -> is_part x)).
      { intros P. split; intros F x I; [apply F; now right|]. destruct I as [<-|I]; auto. }
      assert (BAD : (~ is_part o) -> Err (ELdap 2) = Ok p <-> (forall x, In x (o :: l) -> is_part x) /\
         olist (p_user p0) ++ parts_of KPwUser (o :: l) = olist (p_user p) /\ olist (p_old p0) ++ parts_of KPwOld (o :: l) = olist (p_old p) /\
         olist (p_new p0) ++ parts_of KPwNew (o :: l) = olist (p_new p)).
      { intros P. split; [discriminate|]. intros (F & _). exfalso. apply P, F. now left. }
      assert (TWO : forall (x y : bytes) r o', x :: y :: r = olist o' -> False) by (intros ? ? ? [|]; discriminate).
      destruct o as [| |k t b| | | | | | | | | | | | | | | | | | |]; try (apply BAD; intros (c0 & t0 & v0 & E0 & _); discriminate).
      destruct k; try (apply BAD; intros (c0 & t0 & v0 & E0 & D); injection E0 as <- <- <-; destruct D as [D|[D|D]]; discriminate).
      all: rewrite FC by (do 3 eexists; split; [reflexivity|auto]).
      + destruct p0 as [[u|] o n]; cbn [p_user p_old p_new].
        * split; [discriminate|]. cbn. intros (_ & U & _). exfalso. exact (TWO _ _ _ _ U).
        * rewrite IH. cbn. tauto.
      + destruct p0 as [u [o|] n]; cbn [p_user p_old p_new].
        * split; [discriminate|]. cbn. intros (_ & _ & U & _). exfalso. exact (TWO _ _ _ _ U).
        * rewrite IH. cbn. tauto.
      + destruct p0 as [u o [n|]]; cbn [p_user p_old p_new].
        * split; [discriminate|]. cbn. intros (_ & _ & _ & U). exfalso. exact (TWO _ _ _ _ U).
        * rewrite IH. cbn. tauto.
  Qed.
  Lemma pw_parts_err l : forall p0 x, pw_parts l p0 = Err x -> x = ELdap 2.
  Proof.
    induction l as [|o l IH]; intros p0 x; cbn [pw_parts]; [discriminate|].
    destruct o as [| |k t b| | | | | | | | | | | | | | | | | | |]; try congruence. destruct k; try congruence.
    - destruct (p_user p0); [congruence|apply IH].
    - destruct (p_old p0); [congruence|apply IH].
    - destruct (p_new p0); [congruence|apply IH].
  Qed.
  (** What the request asks for, when it is not refused *)
  Definition asks_parts (l : list obj) (me new : bytes) : Prop :=
    (forall o, In o l -> is_part o) /\ parts_of KPwOld l = [] /\ parts_of KPwNew l = [new] /\ (parts_of KPwUser l = [] \/ parts_of KPwUser l = [me]).
  Definition small (x : exn) : Prop := forall c, x = ELdap c -> 0 < c < 128.
  Ltac sm := intros ?c0 [= <-] || intros ?c0 ?; try discriminate; try lia.
  Lemma pw_modify_spec s salt data : dns_encodable (v_heap s) ->
    (exists k tag l r n me new e', data = OSeq k tag l /\ v_bound s = Some r /\ nth_error (v_heap s) r = Some n /\ utf8_encode (dn_text (n_dn n)) = Ok me /\
       asks_parts l me new /\ setPassword sha lower pw_first new salt (n_entry n) = Ok e' /\
       pw_modify lower sha pw_first s salt data = (set_heap s (set_nth r (set_entry n e') (v_heap s)), Ok tt)) \/
    (exists x, pw_modify lower sha pw_first s salt data = (s, Err x) /\ small x).
  Proof.
    intros ENC. unfold pw_modify. destruct data; try (right; eexists; split; [reflexivity|sm]). cbn [bind].
    destruct (pw_parts l (mkPw None None None)) as [p|x] eqn:P; [|apply pw_parts_err in P; subst; right; eexists; split; [reflexivity|sm]].
    cbn [bind]. destruct (v_bound s) as [r|] eqn:BD; [|right; eexists; split; [reflexivity|sm]].
    destruct (deref (v_heap s) r) as [n|x] eqn:D; cbn [bind].
    2: { right. eexists. split; [reflexivity|]. unfold deref in D. destruct (nth_error (v_heap s) r); [discriminate|]. injection D as <-. sm. }
    apply deref_ok in D. destruct (ENC r n D) as (me & ME). rewrite ME. cbn [bind].
    apply pw_parts_ok in P as (F & U & O & N). cbn [p_user p_old p_new olist app] in U, O, N.
    assert (US : match p_user p with Some u => Ok (bytes_eqb me u) | None => Ok true end = Ok (match p_user p with Some u => bytes_eqb me u | None => true end)) by now destruct (p_user p).
    rewrite US. cbn [bind]. destruct (match p_user p with Some u => bytes_eqb me u | None => true end) eqn:SM; cbn [negb]; [|right; eexists; split; [reflexivity|sm]].
    destruct (p_old p) as [old|]; [right; eexists; split; [reflexivity|sm]|].
    destruct (p_new p) as [new|]; [|right; eexists; split; [reflexivity|sm]].
    destruct (set_password_spec lower sha pw_first new salt (n_entry n)) as (e' & SP & _). rewrite SP. cbn [bind]. left.
    exists k, tag, l, r, n, me, new, e'. split; [reflexivity|]. split; [reflexivity|]. split; [exact D|]. split; [exact ME|]. split; [|split; [exact SP|reflexivity]].
    split; [exact F|]. split; [exact O|]. split; [exact N|]. destruct (p_user p) as [u|]; [|now left]. right. cbn in U. rewrite U. f_equal. symmetry. now apply bytes_eqb_eq.
  Qed.
  Lemma pw_modify_does s salt k tag l r n me new : v_bound s = Some r -> nth_error (v_heap s) r = Some n -> utf8_encode (dn_text (n_dn n)) = Ok me ->
    asks_parts l me new -> exists e', setPassword sha lower pw_first new salt (n_entry n) = Ok e' /\
      pw_modify lower sha pw_first s salt (OSeq k tag l) = (set_heap s (set_nth r (set_entry n e') (v_heap s)), Ok tt).
  Proof.
    intros BD D ME (F & O & N & U). destruct (set_password_spec lower sha pw_first new salt (n_entry n)) as (e' & SP & _). exists e'. split; [exact SP|].
    unfold pw_modify. cbn [bind].
    assert (exists p, pw_parts l (mkPw None None None) = Ok p /\ (p_user p = None \/ p_user p = Some me) /\ p_old p = None /\ p_new p = Some new) as (p & -> & PU & PO & PN).
    { destruct U as [U|U]; [exists (mkPw None None (Some new))|exists (mkPw (Some me) None (Some new))]; (split; [apply pw_parts_ok; cbn; rewrite U, O, N; auto|cbn; auto]). }
    cbn [bind]. rewrite BD, PO, PN. rewrite (proj2 (deref_ok _ _ _) D). cbn [bind]. destruct PU as [-> | ->]; [|rewrite ME; cbn [bind]; rewrite (proj2 (bytes_eqb_eq me me) eq_refl)];
      cbn [bind negb]; rewrite SP; reflexivity.
  Qed.

  Lemma ext_answer s salt tag i t name value cs s' out code nm m : i <> 0 ->
    handle_extended lower sha pw_first text s salt name value cs = (s', [], out) ->
    (out = Return (Some (ext_obj code (VBytes m) (VBytes nm))) \/ exists x, out = Raise x (VBytes m) /\ code = match x with ELdap c => c | _ => 2 end) ->
    exists fin nm', (nm' = None \/ nm' = Some nm) /\ handle s salt (OMessage tag (VInt i) (OExtReq t name value) cs) = Ok (s', [fin]) /\
      (sane i (ExtendedResponse (mkResult code [] m) nm' None) -> sends fin i (ExtendedResponse (mkResult code [] m) nm' None)).
  Proof.
    intros N H O. assert (N' : VInt i <> VInt 0) by congruence. rewrite (handle_eq s salt tag (VInt i) (OExtReq t name value) cs RExtended eq_refl N').
    cbn [ServerModel.handler]. rewrite H.
    assert (exists nm', (nm' = None \/ nm' = Some nm) /\ match out with Return o => Ok (s', [] ++ final (VInt i) o) | Raise x msg => Ok (s', [] ++ final (VInt i) (Some (on_error RExtended x msg))) end =
       Ok (s', final (VInt i) (Some (response_obj (ExtendedResponse (mkResult code [] m) nm' None))))) as (nm' & NM & E).
    { destruct O as [->|(x & -> & ->)]; [exists (Some nm); auto|]. exists None. split; [now left|]. destruct x; reflexivity. }
    set (r := ExtendedResponse (mkResult code [] m) nm' None) in *.
    destruct (final_one (VInt i) (response_obj r)) as (ev & EV & _). exists ev, nm'. split; [exact NM|]. split.
    - destruct out; rewrite E, EV; reflexivity.
    - intros S. destruct (final_sends i r S) as (ev' & EV' & Q). fold r in EV', Q. rewrite EV in EV'. injection EV' as ->. exact Q.
  Qed.
  Lemma extended_spec s salt name value cs : dns_encodable (v_heap s) ->
    (exists r n me new e', name = VBytes pw_oid /\ v_bound s = Some r /\ nth_error (v_heap s) r = Some n /\ utf8_encode (dn_text (n_dn n)) = Ok me /\
       asks_new_password value me new /\ setPassword sha lower pw_first new salt (n_entry n) = Ok e' /\
       handle_extended lower sha pw_first text s salt name value cs =
         (set_heap s (set_nth r (set_entry n e') (v_heap s)), [], Return (Some (ext_obj 0 (VBytes []) (VBytes pw_oid))))) \/
    (exists out code m nm, handle_extended lower sha pw_first text s salt name value cs = (s, [], out) /\ 0 < code < 128 /\ said text m /\ nm = pw_oid /\
       (out = Return (Some (ext_obj code (VBytes m) (VBytes nm))) \/ exists x, out = Raise x (VBytes m) /\ code = match x with ELdap c => c | _ => 2 end)).
  Proof.
    intros ENC. unfold handle_extended.
    assert (R : forall x, small x -> exists out code m nm, raise s x = (s, [], out) /\ 0 < code < 128 /\ said text m /\ nm = pw_oid /\
       (out = Return (Some (ext_obj code (VBytes m) (VBytes nm))) \/ exists x, out = Raise x (VBytes m) /\ code = match x with ELdap c => c | _ => 2 end)).
    { intros x X. exists (Raise x (VBytes (text x))), (match x with ELdap c => c | _ => 2 end), (text x), pw_oid. split; [reflexivity|]. split; [destruct x; try lia; now apply X|]. split; [right; eauto|]. split; [reflexivity|]. right. eauto. }
    assert (CC : forall x, checkControls cs = Err x -> small x).
    { intros x. destruct cs as [l|]; [|discriminate]. cbn. induction l as [|((t & cr) & v) l IH]; cbn [check_list]; [discriminate|].
      destruct (truthy cr); [|apply IH]. destruct t; intros [= <-]; sm. }
    destruct (checkControls cs) as [u|x]; [|right; apply R; now apply CC]. cbn [ServerModel.try]. unfold ServerModel.try at 1.
    destruct name as [|z|nm]; try (right; apply R; sm). destruct (bytes_eqb nm pw_oid) eqn:NM; [|right; apply R; sm].
    apply bytes_eqb_eq in NM. subst nm. unfold ServerModel.try.
    destruct (match value with VBytes _ => _ | VInt _ => _ | VNone => _ end) as [values|x] eqn:V.
    - destruct values as [|data [|]]; try (right; apply R; sm).
      destruct (pw_modify_spec s salt data ENC) as [(k & tag & l & r & n & me & new & e' & -> & BD & D & ME & A & SP & ->)|(x & -> & X)].
      + left. exists r, n, me, new, e'. split; [reflexivity|]. split; [exact BD|]. split; [exact D|]. split; [exact ME|]. split; [|split; [exact SP|reflexivity]].
        destruct value as [|z|b]; try discriminate. exists b, k, tag, l. split; [reflexivity|]. split; [exact V|]. exact A.
      + right. destruct x; try (apply R; exact X). exists (Return (Some (ext_obj code (VBytes (text (ELdap code))) (VBytes pw_oid)))), code, (text (ELdap code)), pw_oid.
        split; [reflexivity|]. split; [now apply X|]. split; [right; eauto|]. split; [reflexivity|]. now left.
    - right. apply R. destruct value as [|z|b]; try discriminate; [injection V as <-; sm|]. intros c ->.
      exfalso. exact (decs_nl lookup_id inherit (fromBER (S (length b))) (fromBER_nl _) b ctx_pw c V).
  Qed.
  Lemma extended_does s salt value cs r n me new : no_critical cs -> v_bound s = Some r -> nth_error (v_heap s) r = Some n ->
    utf8_encode (dn_text (n_dn n)) = Ok me -> asks_new_password value me new -> exists e', setPassword sha lower pw_first new salt (n_entry n) = Ok e' /\
    handle_extended lower sha pw_first text s salt (VBytes pw_oid) value cs =
      (set_heap s (set_nth r (set_entry n e') (v_heap s)), [], Return (Some (ext_obj 0 (VBytes []) (VBytes pw_oid)))).
  Proof.
    intros C BD D ME (b & k & tag & l & -> & V & A). destruct (pw_modify_does s salt k tag l r n me new BD D ME A) as (e' & SP & P). exists e'. split; [exact SP|].
    unfold handle_extended. rewrite (check_ok cs C). unfold ServerModel.try. rewrite (proj2 (bytes_eqb_eq pw_oid pw_oid) eq_refl), V, P. reflexivity.
  Qed.
  Lemma ext_unknown s salt name value cs : no_critical cs -> name <> VBytes pw_oid -> handle_extended lower sha pw_first text s salt name value cs = raise s (ELdap 2).
  Proof.
    intros C N. unfold handle_extended. rewrite (check_ok cs C). unfold ServerModel.try at 1. destruct name as [|z|n]; try reflexivity. destruct (bytes_eqb n pw_oid) eqn:E; [|reflexivity].
    apply bytes_eqb_eq in E. now subst.
  Qed.
  Lemma ext_refuses s salt value cs u new c : no_critical cs -> asks_new_password value u new ->
    (v_bound s = None /\ c = 8 \/ exists r n me, v_bound s = Some r /\ nth_error (v_heap s) r = Some n /\ utf8_encode (dn_text (n_dn n)) = Ok me /\ ~ asks_new_password value me new /\ c = 50) ->
    handle_extended lower sha pw_first text s salt (VBytes pw_oid) value cs = (s, [], Return (Some (ext_obj c (VBytes (text (ELdap c))) (VBytes pw_oid)))).
  Proof.
    intros C (b & k & tag & l & -> & V & F & O & N & U) W. unfold handle_extended. rewrite (check_ok cs C). unfold ServerModel.try. rewrite (proj2 (bytes_eqb_eq pw_oid pw_oid) eq_refl), V.
    assert (exists p, pw_parts l (mkPw None None None) = Ok p /\ ((p_user p = None /\ parts_of KPwUser l = []) \/ (p_user p = Some u /\ parts_of KPwUser l = [u])) /\ p_old p = None /\ p_new p = Some new) as (p & PP & PU & PO & PN).
    { destruct U as [U|U]; [exists (mkPw None None (Some new))|exists (mkPw (Some u) None (Some new))]; (split; [apply pw_parts_ok; cbn; rewrite U, O, N; auto|cbn; auto]). }
    unfold pw_modify. cbn [bind]. rewrite PP. cbn [bind]. destruct W as [(W & ->)|(r & n & me & W & D & ME & NA & ->)]; rewrite W; [reflexivity|].
    rewrite (proj2 (deref_ok _ _ _) D). cbn [bind]. destruct PU as [(PU & X)|(PU & X)]; rewrite PU.
    - exfalso. apply NA. exists b, k, tag, l. auto 8.
    - rewrite ME. cbn [bind]. destruct (bytes_eqb me u) eqn:E; [|reflexivity]. apply bytes_eqb_eq in E. subst u. exfalso. apply NA. exists b, k, tag, l. auto 8.
  Qed.
End Shape.
