(** The server's end: what it takes, and of which shape its messages are. *)
From Verif Require Import Base BaseFacts BerModel LdapModel LdapSpec LdapProofs DnModel EntryModel ServerModel ServerSpec LateModel LateSpec LateProofs PairModel PairSpec.

Lemma taken_app a b : taken (a ++ b) = taken a ++ taken b. Proof. apply flat_map_app. Qed.

(** ** Shapes *)
Definition result_cls (k : cls) : bool :=
  match k with KBindResp | KSearchDone | KModResp | KAddResp | KDelResp | KModDNResp | KCmpResp => true | _ => false end.
Definition shaped (op : obj) : Prop :=
  (exists k c d m, result_cls k = true /\ op = res_obj k c d m) \/ (exists c m n, op = ext_obj c m n) \/
  (exists n l, op = OSearchEntry (class_tag KSearchEntry) n l).

Lemma str_ok tag v w : w_str tag v = Ok w -> exists b, v = VBytes b.
Proof. destruct v; cbn; try discriminate. eauto. Qed.
Lemma strs_ok tag vs ps : Forall2 (fun r p => r = Ok p) (map (w_str tag) vs) ps -> exists bs, vs = map VBytes bs.
Proof.
  revert ps. induction vs as [|v vs IH]; intros ps F; [exists []; reflexivity|].
  inversion F as [|? ? ? ? E F']; subst. apply str_ok in E as (b & ->). destruct (IH _ F') as (bs & ->). exists (b :: bs). reflexivity.
Qed.
Lemma attrs_ok l ps : Forall2 (fun r p => r = Ok p) (map (fun '(a, vs) =>
    w_seq (class_tag KSeq) [w_str (class_tag KOctet) a; w_seq (class_tag KSet) (map (w_str (class_tag KOctet)) vs)]) l) ps ->
  exists ats : list (bytes * list bytes), l = map (fun a => (VBytes (fst a), map VBytes (snd a))) ats.
Proof.
  revert ps. induction l as [|[a vs] l IH]; intros ps F; [exists []; reflexivity|].
  inversion F as [|? ? ? ? E F']; subst. apply w_seq_inv in E as (qs & E & _). inversion E as [|? ? ? ? E1 E2]; subst. inversion E2 as [|? ? ? ? E3 _]; subst.
  apply str_ok in E1 as (b & ->). apply w_seq_inv in E3 as (rs & E3 & _). apply strs_ok in E3 as (bs & ->).
  destruct (IH _ F') as (ats & ->). exists ((b, bs) :: ats). reflexivity.
Qed.
(** What can be encoded is a response as the constructors make it. *)
Lemma shaped_response op w : shaped op -> toWire op = Ok w -> exists r, op = response_obj r.
Proof.
  intros [(k & c & d & m & K & ->)|[(c & m & n & ->)|(n & l & ->)]] W; cbn [toWire res_obj ext_obj] in W; apply w_seq_inv in W as (ps & F & _).
  - cbn [truthy app] in F. inversion F as [|? ? ? ? _ F1]; subst. inversion F1 as [|? ? ? ? E2 F2]; subst. inversion F2 as [|? ? ? ? E3 _]; subst.
    apply str_ok in E2 as (bx & ->). apply str_ok in E3 as (bY & ->).
    destruct k; try discriminate K;
      [exists (BindResponse (mkResult c bx bY) None)|exists (SearchDone (mkResult c bx bY))|exists (ModifyResponse (mkResult c bx bY))|exists (AddResponse (mkResult c bx bY))
      |exists (DeleteResponse (mkResult c bx bY))|exists (ModifyDNResponse (mkResult c bx bY))|exists (CompareResponse (mkResult c bx bY))]; reflexivity.
  - cbn [app pv_part] in F. rewrite app_nil_r in F. inversion F as [|? ? ? ? _ F1]; subst. inversion F1 as [|? ? ? ? E2 F2]; subst. inversion F2 as [|? ? ? ? E3 F3]; subst.
    apply str_ok in E3 as (bY & ->). destruct n as [|z|b]; cbn [pv_part] in F3.
    + exists (ExtendedResponse (mkResult c [] bY) None None). reflexivity.
    + inversion F3; subst. discriminate.
    + exists (ExtendedResponse (mkResult c [] bY) (Some b) None). reflexivity.
  - inversion F as [|? ? ? ? E1 F1]; subst. inversion F1 as [|? ? ? ? E2 _]; subst. apply str_ok in E1 as (bx & ->).
    apply w_seq_inv in E2 as (qs & E2 & _). apply attrs_ok in E2 as (ats & ->). exists (SearchEntry bx ats). reflexivity.
Qed.
Lemma message_part tag id op w : toWire (OMessage tag id op None) = Ok w -> exists x, toWire op = Ok x.
Proof.
  cbn [toWire opt_part app]. intros W. apply w_seq_inv in W as (ps & F & _). inversion F as [|? ? ? ? _ F1]; subst. inversion F1 as [|? ? ? ? E _]; subst. eauto.
Qed.

Lemma shaped_res k c d m : result_cls k = true -> shaped (res_obj k c d m). Proof. left. eauto 8. Qed.
Lemma shaped_ext c m n : shaped (ext_obj c m n). Proof. right. left. eauto. Qed.
Lemma shaped_fail kd x m : shaped (on_error kd x m).
Proof. unfold on_error. destruct x, kd; cbn [fail_obj]; first [apply shaped_ext | now apply shaped_res]. Qed.
Definition fin_shaped (f : fin) : Prop := match f with Give (Some o) => shaped o | _ => True end.
Definition next_shaped (nx : next) : Prop := fin_shaped (n_fin nx) /\ match n_reply nx with Some o => shaped o | None => True end.
Lemma go_shaped f : fin_shaped f -> next_shaped (go f). Proof. intros H. split; [exact H|exact I]. Qed.

Section Server.
  Variable lower : str -> str.
  Variable io : Z -> Z -> res Z.
  Variable oc_first : bool.
  Variable text : exn -> bytes.
  Variable root : ent.

  Lemma attempt_shaped {A} (r : res A) k : (forall a, next_shaped (k a)) -> next_shaped (attempt text r k).
  Proof. intros H. destruct r; cbn [attempt]; [apply H|apply go_shaped; exact I]. Qed.
  Lemma done_shaped k : result_cls k = true -> fin_shaped (done k). Proof. intros H. now apply shaped_res. Qed.
  Lemma own_shaped k f : result_cls k = true -> fin_shaped f -> fin_shaped (own_error k f).
  Proof. intros K H. destruct f as [|[]|[]]; cbn [own_error]; try exact H; now apply shaped_res. Qed.
  Lemma on_entry_shaped o k : (forall e, fin_shaped (k e)) -> fin_shaped (on_entry text o k).
  Proof. intros H. destruct o; cbn [on_entry]; [apply H|exact I]. Qed.
  Lemma ext_failed_shaped n x m : fin_shaped (ext_failed n x m).
  Proof. destruct x; cbn [ext_failed]; try exact I. apply shaped_ext. Qed.
  Ltac sh := repeat first [simple apply go_shaped | (simple apply attempt_shaped; intros) | exact I | apply ext_failed_shaped | (apply done_shaped; reflexivity) | apply shaped_ext | (apply shaped_res; reflexivity)
    | (apply own_shaped; [reflexivity|]) | (apply on_entry_shaped; intros)].
  Lemma bind_shaped v d a cs : next_shaped (late_bind io text v d a cs).
  Proof.
    unfold late_bind. destruct v as [|z|]; try (now sh).
    destruct z as [|[[p|p|]|p|]|]; try (now sh). sh. destruct d as [|z|[|x l]]; sh. split; [apply done_shaped; reflexivity|exact I].
  Qed.
  Lemma search_shaped names b sc de si ti ty f at_ cs : next_shaped (late_search io text root names b sc de si ti ty f at_ cs).
  Proof.
    unfold late_search. sh. match goal with |- next_shaped (if ?x then _ else _) => destruct x end; sh.
    split; [apply done_shaped; reflexivity|]. right. right. repeat eexists.
  Qed.
  Lemma add_shaped d a cs : next_shaped (late_add io text d a cs).
  Proof. unfold late_add. sh. match goal with |- next_shaped (match ?x with [] => _ | _ => _ end) => destruct x end; sh. Qed.
  Lemma modify_dn_shaped d n de su cs : next_shaped (late_modify_dn io text d n de su cs).
  Proof. unfold late_modify_dn. sh. destruct (negb (truthy de)); sh. Qed.
  Lemma modify_shaped r cs : next_shaped (late_modify io text r cs).
  Proof. unfold late_modify. sh. match goal with x : dn * list _ |- _ => destruct x end. sh. Qed.
  Lemma extended_shaped names bound n v cs : next_shaped (late_extended text names bound n v cs).
  Proof.
    unfold late_extended. sh. destruct n as [| |n]; try (now sh). destruct (bytes_eqb n pw_oid); sh.
    match goal with |- next_shaped (match ?x with [] => _ | _ => _ end) => destruct x as [|y [|? ?]] end; try (now sh).
    destruct (late_password names bound y) as [(e & new)|x]; sh.
  Qed.
  Lemma handler_shaped names bound req cs : next_shaped (late_handler io text root names bound req cs).
  Proof.
    destruct req; cbn [late_handler];
      first [apply bind_shaped|apply search_shaped|apply add_shaped|apply modify_dn_shaped|apply modify_shaped|apply extended_shaped|(unfold late_compare; now sh)
            |(apply go_shaped; apply shaped_ext)|destruct k; first [(apply go_shaped; apply shaped_ext)|(unfold late_delete; now sh)|(split; exact I)]].
  Qed.
  Lemma resume_shaped names g r : next_shaped (resume text names g r).
  Proof.
    destruct g, r as [[e|]|x msg]; cbn [resume]; try (now sh); try (split; [|exact I]; cbn [n_fin]; now sh);
      try (destruct x as [| | | | | | | | | | | | |c|]; now sh).
    all: try (apply go_shaped; apply own_shaped; [reflexivity|]; match goal with |- fin_shaped (match ?x with _ => _ end) => destruct x end; now sh).
    all: destruct x as [| | | | | | | | | | | |c|]; try (now sh).
    destruct c as [|p|p]; try (now sh). do 6 (destruct p as [p|p|]; try (now sh)).
  Qed.

  (** What an event adds to the trace: no request is taken, and every message has its shape *)
  Definition fits (e : tev) : Prop := match e with TWrite _ _ op _ => shaped op | _ => True end.
  Definition more (s s' : late) : Prop := exists r, l_trace s' = l_trace s ++ r /\ taken r = [] /\ Forall fits r.
  Lemma more_same s s' : l_trace s' = l_trace s -> more s s'.
  Proof. intros E. exists []. rewrite E, app_nil_r. repeat split. constructor. Qed.
  Lemma more_snoc s s' e : l_trace s' = l_trace s ++ [e] -> takes e = [] -> fits e -> more s s'.
  Proof. intros E T F. exists [e]. unfold taken. cbn [flat_map]. rewrite T. repeat split; auto. Qed.
  Lemma more_trans a b c : more a b -> more b c -> more a c.
  Proof. intros (r & E & T & F) (r' & E' & T' & F'). exists (r ++ r'). rewrite E', E, app_assoc, taken_app, T, T'. repeat split. now apply Forall_app. Qed.
  Lemma finish_adds k id kd f s : fin_shaped f -> more s (finish k id kd f s).
  Proof.
    intros H. destruct f as [c g|[o|]|x msg]; cbn [finish]; unfold calls, respond.
    - now apply (more_snoc _ _ (TCall (l_calls s) k c)).
    - destruct (queued s id o) as [b|x]; [now apply (more_snoc _ _ (TWrite k id o b))|now apply (more_snoc _ _ (TUnsent k o x))].
    - now apply more_same.
    - destruct (queued _ _ _) as [b|y]; [|now apply (more_snoc _ _ (TUnsent k (on_error kd x msg) y))].
      apply (more_snoc _ _ (TWrite k id (on_error kd x msg) b)); auto. apply shaped_fail.
  Qed.
  Lemma perform_adds k id kd nx s : next_shaped nx -> more s (perform text k id kd nx s).
  Proof.
    intros (H1 & H2). unfold perform. set (s1 := match n_bound nx with Some o => set_bound_user o s | None => s end).
    set (s2 := if n_close nx then emit (TClose k) s1 else s1).
    assert (A : more s s2).
    { apply (more_trans _ s1); [unfold s1; destruct (n_bound nx); now apply more_same|]. unfold s2. destruct (n_close nx); [now apply (more_snoc _ _ (TClose k))|now apply more_same]. }
    apply (more_trans _ _ _ A). destruct (n_reply nx) as [o|]; [|now apply finish_adds]. destruct (queued s2 id o) as [b|x].
    - apply (more_trans _ (emit (TWrite k id o b) s2)); [now apply (more_snoc _ _ (TWrite k id o b))|now apply finish_adds].
    - apply (more_trans _ (emit (TRefused k x) s2)); [now apply (more_snoc _ _ (TRefused k x))|now apply finish_adds].
  Qed.
  Local Notation step := (lstep lower io oc_first text root).
  Lemma entry_shaped attrs e o : entry_response lower oc_first attrs e = Ok o -> shaped o.
  Proof. unfold entry_response. intros E. apply BaseFacts.bind_ok in E as (l & _ & E). injection E as <-. right. right. eauto. Qed.
  Lemma step_adds s e : (forall m names, e <> EMessage m names) -> more s (step s e).
  Proof.
    intros N. destruct e as [| |m names|n r names|n x]; cbn [lstep].
    - destruct (l_conn s); [now apply (more_snoc _ _ TMade)|now apply more_same|now apply more_same].
    - destruct (l_conn s); [now apply more_same|now apply (more_snoc _ _ TLost)|now apply more_same].
    - now destruct (N m names).
    - assert (G : more s (fired text n r names s)).
      { unfold fired. destruct (find_at n (l_wait s)) as [w|]; [|now apply more_same].
        eapply more_trans; [|apply perform_adds, resume_shaped]. now apply (more_snoc _ _ (TFired n r)). }
      destruct (l_conn s); exact G.
    - assert (G : more s (called_back lower oc_first n x s)).
      { unfold called_back. destruct (find_at n (l_cbs s)) as [((k & id) & attrs)|]; [|now apply more_same].
        destruct (entry_response lower oc_first attrs x) as [o|y] eqn:E; cbn [bind]; [|now apply (more_snoc _ _ (TRefused k y))].
        destruct (queued s id o) as [b|y]; cbn [bind]; [|now apply (more_snoc _ _ (TRefused k y))].
        apply (more_snoc _ _ (TWrite k id o b)); auto. eapply entry_shaped; eauto. }
      destruct (l_conn s); exact G.
  Qed.
  (** A request is taken *)
  Lemma take_adds s tag i req cs names : l_conn s = CUp -> kind_of req <> None -> i <> 0 ->
    exists r, l_trace (step s (EMessage (OMessage tag (VInt i) req cs) names)) = l_trace s ++ r /\ taken r = [OMessage 0x10 (VInt i) req cs] /\ Forall fits r.
  Proof.
    intros C K NZ. cbn [lstep]. rewrite C. cbn [late_handle]. destruct (kind_of req) as [kd|]; [|congruence].
    set (s1 := mkLate _ _ _ _ _ _ _).
    destruct (perform_adds (l_reqs s) (VInt i) kd (late_handler io text root names (l_bound s) req cs) s1 (handler_shaped _ _ _ _)) as (r & E & T & F).
    exists (TGot (l_reqs s) (VInt i) req cs names :: r).
    destruct i; [congruence|..]; cbv zeta iota; rewrite E; unfold s1; cbn [l_trace]; rewrite <- app_assoc; (split; [reflexivity|]);
      (split; [unfold taken in *; cbn [flat_map takes]; now rewrite T|constructor; [exact I|exact F]]).
  Qed.
  (** Where the connection is *)
  Lemma taken_came t id req cs : In (OMessage 0x10 id req cs) (taken t) <-> exists k names, came t k id req cs names.
  Proof.
    unfold taken. rewrite in_flat_map. split.
    - intros (e & J & H). destruct e; cbn in H; try now destruct H. destruct H as [H|[]]. injection H as <- <- <-. exists k, names. exact J.
    - intros (k & names & J). eexists. split; [exact J|]. now left.
  Qed.
End Server.
