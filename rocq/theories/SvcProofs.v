(** The service-binding proxy: proofs. *)
From Verif Require Import Base BaseFacts Utf8Model DnModel EntryModel LdapModel LdapSpec ServerModel ClientModel ProxyModel SyntaxModel SvcModel SvcSpec.

Lemma bind_msg_ok v : bind_msg v = Ok tt -> bind_result 0 v.
Proof. destruct v; try discriminate. destruct k; try discriminate. cbn. match goal with |- code_check ?c = _ -> _ => destruct c as [|[]|]; try discriminate end. intros _. repeat eexists. Qed.
Lemma bind_msg_err v x : bind_msg v = Err x -> (x = ELdap 49 -> bind_result 49 v) /\ (forall c, x = ELdap c -> c <> 0).
Proof.
  destruct v; cbn; try (intros E; injection E as <-; split; [discriminate|intros c E; discriminate]).
  destruct k; try (intros E; injection E as <-; split; [discriminate|intros c E; discriminate]).
  match goal with |- code_check ?c = _ -> _ => destruct c as [|z|b] end; cbn.
  - intros E. injection E as <-. split; [discriminate|intros c E; injection E as <-; discriminate].
  - destruct z; try discriminate; intros E; injection E as <-; (split; [intros E; injection E as E; rewrite ?E; repeat eexists|intros c E; injection E as <-; discriminate]).
  - intros E. injection E as <-. split; [discriminate|intros c E; injection E as <-; discriminate].
Qed.
Lemma bind_result_msg v : (bind_result 0 v -> bind_msg v = Ok tt) /\ (bind_result 49 v -> bind_msg v = Err (ELdap 49)).
Proof. split; intros (t & d & m & c & ->); reflexivity. Qed.
Lemma utf8_encode_not_ldap s : forall x c, utf8_encode s = Err x -> x <> ELdap c.
Proof.
  induction s as [|a s IH]; intros x c; cbn; [discriminate|]. destruct (utf8_char a) as [b|y] eqn:E; cbn.
  - destruct (utf8_encode s) as [t|y]; cbn; [discriminate|]. intros X. injection X as <-. now apply IH.
  - intros X. injection X as <-. unfold utf8_char in E. repeat match type of E with context [if ?b then _ else _] => destruct b end; try discriminate; injection E as <-; discriminate.
Qed.
Lemma new_cent_dn lower d l : y_dn (new_cent lower d l) = d. Proof. reflexivity. Qed.

Section Search.
  Variable lower : str -> str.
  Variable io : Z -> Z -> res Z.
  Lemma search_entry_dn name ats e : search_entry lower io name ats = Ok e -> to_dn io name = Ok (y_dn e).
  Proof. unfold search_entry. destruct (attrib ats []); cbn [bind]; [|discriminate]. destruct (to_dn io name); cbn [bind]; [|discriminate]. intros X. injection X as <-. reflexivity. Qed.
  Lemma search_more msg acc acc' ms : search_parts io ms (map y_dn (q_found acc)) -> q_end acc = None -> search_msg lower io false msg acc = (acc', Ok false) ->
    search_parts io (ms ++ [msg]) (map y_dn (q_found acc')) /\ q_end acc' = None.
  Proof.
    intros P E. unfold search_msg. destruct msg; try discriminate; [| |].
    - intros X. injection X as <-. split; [now constructor|exact E].
    - destruct k; try discriminate. match goal with |- context [code_check ?c] => destruct c as [|[|[]|]|] end; cbn; try discriminate; repeat match goal with |- context [match ?x with Ok _ => _ | Err _ => _ end] => destruct x; try discriminate | |- context [match ?x with xI _ => _ | xO _ => _ | xH => _ end] => destruct x; try discriminate end.
    - match goal with |- context [search_entry lower io ?n ?a] => destruct (search_entry lower io n a) as [e|] eqn:SE; [|discriminate]; destruct n as [|z|b]; try (apply search_entry_dn in SE; discriminate) end. intros X. injection X as <-. apply search_entry_dn in SE. cbn [q_found q_end]. split; [|exact E].
      rewrite map_app. cbn [map]. now constructor.
  Qed.
  Lemma search_end msg acc acc' : search_msg lower io false msg acc = (acc', Ok true) ->
    (q_end acc' = Some (Ok tt) /\ q_found acc' = q_found acc /\ exists t code m c, (code = 0 \/ code = 4) /\ msg = OResult KSearchDone t (VInt code) (VBytes []) m c) \/
    (exists x, q_end acc' = Some (Err x) /\ (forall c, x = ELdap c -> c <> 0) /\ (x = ELdap 49 -> exists t d m c, msg = OResult KSearchDone t (VInt 49) d m c)).
  Proof.
    unfold search_msg. destruct msg as [ | | | | | | | | | | | | |k t code d m c| | | | | | | | ]; try discriminate.
    - destruct k; try discriminate.
      assert (DN : match assert_matched d with Ok _ => (mkSres (q_found acc) (Some (Ok tt)), Ok true) | Err x => (acc, Err x) end = (acc', Ok true) -> d = VBytes [] /\ q_end acc' = Some (Ok tt) /\ q_found acc' = q_found acc).
      { destruct d as [|z|[|b0 bs]]; cbn; try discriminate. intros X. injection X as <-. auto. }
      destruct (code_check code) as [u|x] eqn:CC.
      + intros X. left. assert (Z0 : code = VInt 0) by (destruct code as [|[]|]; try discriminate; reflexivity). subst code. destruct (DN X) as (-> & E & F). split; [exact E|]. split; [exact F|]. repeat eexists. now left.
      + intros X. assert (Z4 : code = VInt 4 \/ code <> VInt 4) by (destruct code as [|z|]; [right; discriminate| |right; discriminate]; destruct (Z.eq_dec z 4) as [->|N]; [now left|right; congruence]).
        destruct Z4 as [->|N4].
        * left. destruct (DN X) as (-> & E & F). split; [exact E|]. split; [exact F|]. repeat eexists. now right.
        * right. exists x. assert (X' : acc' = mkSres (q_found acc) (Some (Err x))).
          { destruct code as [|[|p|p]|]; try congruence; try (injection X as <-; reflexivity); try discriminate. destruct p as [p|p|]; try (injection X as <-; reflexivity). destruct p as [p|p|]; try (injection X as <-; reflexivity). destruct p as [p|p|]; try (injection X as <-; reflexivity). congruence. }
          subst acc'. split; [reflexivity|]. destruct code as [|z|b]; cbn in CC.
          -- injection CC as <-. split; [intros c0 E; injection E as <-; discriminate|discriminate].
          -- destruct z as [|p|p]; [discriminate| |]; injection CC as <-; (split; [intros c0 E; injection E as <-; discriminate|intros E; injection E as E; rewrite ?E; repeat eexists]).
          -- injection CC as <-. split; [intros c0 E; injection E as <-; discriminate|discriminate].
    - match goal with |- context [search_entry ?a ?b ?c ?d] => destruct (search_entry a b c d); discriminate end.
  Qed.
End Search.

Lemma list_snoc {A} (l : list A) : l = [] \/ exists l' x, l = l' ++ [x].
Proof. induction l as [|x l _] using rev_ind; [now left|right; eauto]. Qed.
Lemma came_ends ms : forall x t t' e, t ++ BSearchFor x :: map BCame ms = t' ++ [e] -> match e with BSearchFor _ | BCame _ => True | _ => False end.
Proof.
  intros x t t' e H. destruct (list_snoc ms) as [->|(ms' & m & ->)].
  - apply app_inj_tail in H as [_ <-]. exact I.
  - rewrite map_app in H. change (t ++ (BSearchFor x :: map BCame ms') ++ [BCame m] = t' ++ [e]) in H. rewrite app_assoc in H. apply app_inj_tail in H as [_ <-]. exact I.
Qed.
Lemma came_cut ms : forall ms' x x' t t', t ++ BSearchFor x :: map BCame ms = t' ++ BSearchFor x' :: map BCame ms' -> t = t' /\ x = x' /\ ms = ms'.
Proof.
  induction ms as [|m ms IH] using rev_ind; intros ms' x x' t t' H; destruct (list_snoc ms') as [->|(ms2 & m2 & ->)].
  - apply app_inj_tail in H as [-> E]. injection E as ->. auto.
  - rewrite map_app in H. change (t ++ [BSearchFor x] = t' ++ (BSearchFor x' :: map BCame ms2) ++ [BCame m2]) in H. rewrite app_assoc in H. apply app_inj_tail in H as [_ E]. discriminate.
  - rewrite map_app in H. change (t ++ (BSearchFor x :: map BCame ms) ++ [BCame m] = t' ++ [BSearchFor x']) in H. rewrite app_assoc in H. apply app_inj_tail in H as [_ E]. discriminate.
  - rewrite !map_app in H. change (t ++ (BSearchFor x :: map BCame ms) ++ [BCame m] = t' ++ (BSearchFor x' :: map BCame ms2) ++ [BCame m2]) in H. rewrite !app_assoc in H. apply app_inj_tail in H as [H E]. injection E as ->. apply IH in H as (-> & -> & ->). auto.
Qed.
Lemma search_parts_fun io ms ds : search_parts io ms ds -> forall ds', search_parts io ms ds' -> ds = ds'.
Proof.
  induction 1 as [|ms ds t name ats d P IH D|ms ds t l P IH]; intros ds' Q; inversion Q; subst; try (apply (f_equal (@length obj)) in H; rewrite app_length in H; cbn in H; lia); auto;
    try (destruct ms; discriminate); try (match goal with E : _ ++ [_] = _ ++ [_] |- _ => apply app_inj_tail in E as [-> E]; try discriminate E; try (injection E; intros; subst) end).
  - rewrite D in H1. injection H1 as <-. now rewrite (IH _ H0).
  - now apply IH.
Qed.
Lemma answers_search_last io ms v ds : answers_search io (ms ++ [v]) ds -> search_parts io ms ds /\ exists t code m c, (code = 0 \/ code = 4) /\ v = OResult KSearchDone t (VInt code) (VBytes []) m c.
Proof. intros A. inversion A. apply app_inj_tail in H as [-> <-]. split; [assumption|]. repeat eexists. assumption. Qed.

Lemma checkControls_not_0 cs c : checkControls cs = Err (ELdap c) -> c <> 0.
Proof. destruct cs as [l|]; [|discriminate]. cbn. induction l as [|[[t cr] v] l IH]; [discriminate|]. cbn. destruct (truthy cr); [|exact IH]. destruct t; try discriminate. intros E. injection E as <-. discriminate. Qed.

Section Run.
  Variable lower : str -> str.
  Variable io : Z -> Z -> res Z.
  Variable text : exn -> bytes.
  Variable services : list bytes.
  Variable fallback : bool.
  Variable d : dn.
  Variable bb : bytes.
  Hypothesis Hbb : utf8_encode (dn_text d) = Ok bb.
  Variable tag version : Z.
  Variable owner : bytes.
  Variable auth : bauth.
  Variable controls : option (list (pv * pv * pv)).
  Notation req := (b_req tag version owner auth).
  Notation rnds := (rounds io bb owner (the_pw auth)).
  Notation unf := (unfinished io bb owner (the_pw auth)).
  Notation endd := (ended io bb owner (the_pw auth) services fallback req).
  Notation conv := (conversation io bb owner (the_pw auth) services fallback req).
  Notation concl := (conclude text fallback tag version owner auth).
  Notation trys := (try_service lower text fallback tag version owner auth).
  Notation loope := (loop_error lower text fallback tag version owner auth).
  Notation gote := (got_entries lower text fallback tag version owner auth).
  Notation step := (b_step lower io text fallback (Some d) tag version owner auth).
  Notation start := (b_start lower text services fallback (Some d) tag version owner auth controls).

  Lemma e_bind_cases up c : (exists p, the_pw auth = Some p /\ e_bind auth up c = c_bind p (net_of up) c) \/ (the_pw auth = None /\ e_bind auth up c = ([], Err EType)).
  Proof. destruct auth as [[|z|p]|]; try (right; now split). left. now exists p. Qed.

  (** What is known in each phase *)
  Definition binv (s : bst) : Prop :=
    match b_phase s with
    | BSearching n rest acc => exists done t now ms, services = done ++ n :: rest /\ rnds done t /\ search_parts io ms (map y_dn (q_found acc)) /\ q_end acc = None /\
        b_trace s = t ++ BSearchFor (search_for bb owner n now) :: map BCame ms
    | BBinding n rest c => exists done t now ms b p, services = done ++ n :: rest /\ rnds done t /\ answers_search io ms [y_dn c] /\ utf8_encode (dn_text (y_dn c)) = Ok b /\ (the_pw auth) = Some p /\
        b_trace s = t ++ BSearchFor (search_for bb owner n now) :: map BCame ms ++ [BBindAs (bind_as b p)]
    | BPassing => exists t vs, fallback = true /\ rnds services t /\ b_trace s = t ++ passed_back req vs
    | BDone => endd (b_trace s)
    end.

  Lemma error_is x : (forall c, x = ELdap c -> c <> 0) -> error_reply (b_error text x).
  Proof. intros H. destruct x; try (exists 2; eexists; split; [discriminate|reflexivity]). eexists; eexists; split; [apply H|]; reflexivity. Qed.
  Lemma concl_err done rest t r x s : services = done ++ rest -> rnds done t -> unf rest r -> (forall c, x = ELdap c -> c <> 0) -> b_trace s = t ++ r -> binv (concl (Err x) s).
  Proof. intros A B U X T. cbn. rewrite T, <- app_assoc. eapply En_error; eauto. now apply error_is. Qed.
  Lemma concl_none s t : rnds services t -> b_trace s = t -> binv (concl (Ok None) s).
  Proof.
    intros R <-. unfold conclude. destruct fallback eqn:F.
    - exists (b_trace s), []. split; [exact F|]. now split.
    - cbn. eapply En_refused; eauto.
  Qed.
  Lemma trys_inv rest : forall now up s done t, services = done ++ rest -> rnds done t -> b_trace s = t -> binv (trys now up d rest s).
  Proof.
    intros now up s done t A R T. destruct rest as [|n r].
    - rewrite app_nil_r in A. subst done. cbn [try_service]. now apply (concl_none s t).
    - unfold try_service, c_search. cbn [check y_deleted new_cent bind]. change (y_dn (new_cent lower d [])) with d. unfold text_pv. rewrite Hbb. cbn [bind]. destruct up; cbn [net_of send map].
      + cbn. exists done, t, now, []. split; [exact A|]. split; [exact R|]. split; [constructor|]. split; [reflexivity|]. rewrite T. reflexivity.
      + apply (concl_err done (n :: r) t [] ELostConn); auto; [constructor|discriminate|]. cbn [b_trace bemit]. now rewrite T.
  Qed.
  Lemma loope_inv x now up s done n rest t r : services = done ++ n :: rest -> rnds done t -> b_trace s = t ++ r -> (x = ELdap 49 -> useless io bb owner (the_pw auth) n r) -> unf (n :: rest) r ->
    (forall c, x = ELdap c -> c <> 0) -> binv (loope x now up d rest s).
  Proof.
    intros A R T U49 U X. unfold loop_error.
    assert (E : x = ELdap 49 \/ match x with ELdap 49 => trys now up d rest s | _ => concl (Err x) s end = concl (Err x) s).
    { destruct x as [| | | | | | | | | | | |z|]; try (right; reflexivity). destruct (Z.eq_dec z 49) as [->|N]; [now left|right]. destruct z as [|p|p]; try reflexivity. do 6 (destruct p as [p|p|]; try reflexivity). congruence. }
    destruct E as [E|E].
    - subst x. apply (trys_inv rest now up s (done ++ [n]) (t ++ r)); [now rewrite <- app_assoc|constructor; auto|exact T].
    - rewrite E. now apply (concl_err done (n :: rest) t r).
  Qed.
  Lemma gote_inv now0 now up es s done n rest t ms : services = done ++ n :: rest -> rnds done t -> b_trace s = t ++ BSearchFor (search_for bb owner n now0) :: map BCame ms ->
    answers_search io ms (map y_dn es) -> binv (gote now up d n rest es s).
  Proof.
    intros A R T P. destruct es as [|c [|c' es]]; cbn [got_entries].
    - apply (trys_inv rest now up s (done ++ [n]) (t ++ BSearchFor (search_for bb owner n now0) :: map BCame ms)); [now rewrite <- app_assoc| |exact T]. constructor; auto. now constructor.
    - assert (F : forall x s', b_trace s' = b_trace s -> (forall c, x <> ELdap c) -> binv (loope x now up d rest s')).
      { intros x s' T' X. apply (loope_inv x now up s' done n rest t (BSearchFor (search_for bb owner n now0) :: map BCame ms)); auto; [now rewrite T'|intros E; now elim (X 49)|constructor|intros z E; now elim (X z)]. }
      destruct (e_bind_cases up c) as [(p & W & ->)|[_ ->]]; [|apply F; [cbn [b_trace bemit map]; now rewrite app_nil_r|discriminate]].
      unfold c_bind, text_pv. destruct (utf8_encode (dn_text (y_dn c))) as [b|x] eqn:U; cbn [bind].
      + destruct up; cbn [net_of send].
        * cbn. exists done, t, now0, ms, b, p. split; [exact A|]. split; [exact R|]. split; [exact P|]. split; [exact U|]. split; [exact W|]. rewrite T, <- app_assoc. reflexivity.
        * apply F; [cbn [b_trace bemit map]; now rewrite app_nil_r|discriminate].
      + apply F; [cbn [b_trace bemit map]; now rewrite app_nil_r|]. intros z. now apply (utf8_encode_not_ldap (dn_text (y_dn c))).
    - apply (loope_inv EAssert now up s done n rest t (BSearchFor (search_for bb owner n now0) :: map BCame ms)); auto; [discriminate|constructor|discriminate].
  Qed.
  Lemma lost_inv now s : binv s -> binv (lost text fallback tag version owner auth now s).
  Proof.
    unfold lost. destruct (b_phase s) as [n rest acc|n rest c| |] eqn:P; unfold binv at 1; rewrite P.
    - intros (done & t & nw & ms & A & R & _ & _ & T). apply (concl_err done (n :: rest) t (BSearchFor (search_for bb owner n nw) :: map BCame ms) ELostConn s A R); [constructor|discriminate|exact T].
    - intros (done & t & nw & ms & b & p & A & R & AS & U & W & T). apply (concl_err done (n :: rest) t (BSearchFor (search_for bb owner n nw) :: map BCame ms ++ [BBindAs (bind_as b p)]) ELostConn s A R); [|discriminate|exact T].
      apply (Un_bind io bb owner (the_pw auth) n rest nw ms (y_dn c) b p []); auto.
    - intros (t & vs & F & R & T). cbn. rewrite T. now constructor.
    - intros H. exact H.
  Qed.
  Lemma step_inv s e : binv s -> binv (step s e).
  Proof.
    intros I. destruct e as [now up msg|now]; [|now apply lost_inv]. unfold b_step. destruct (negb (is_response msg)); [now apply lost_inv|].
    destruct (b_phase s) as [n rest acc|n rest c| |] eqn:P; unfold binv in I; rewrite P in I.
    - destruct I as (done & t & nw & ms & A & R & SP & Q & T). cbn zeta.
      assert (T' : b_trace (bemit [BCame msg] s) = t ++ BSearchFor (search_for bb owner n nw) :: map BCame (ms ++ [msg])) by (cbn; rewrite T, map_app, <- app_assoc; reflexivity).
      destruct (search_msg lower io false msg acc) as [acc' [[|]|x]] eqn:SM.
      + destruct (search_end lower io msg acc acc' SM) as [(E & F & tt0 & code & m & c0 & CO & ->)|(x & E & NZ & N49)]; rewrite E.
        * rewrite F. apply (gote_inv nw now up (q_found acc) _ done n rest t (ms ++ [OResult KSearchDone tt0 (VInt code) (VBytes []) m c0])); auto. now constructor.
        * apply (loope_inv x now up _ done n rest t (BSearchFor (search_for bb owner n nw) :: map BCame (ms ++ [msg]))); auto; [|constructor]. intros E49. destruct (N49 E49) as (t1 & d1 & m1 & c1 & ->). eapply Us_49; eauto.
      + destruct (search_more lower io msg acc acc' ms SP Q SM) as [SP' Q']. cbn. exists done, t, nw, (ms ++ [msg]). cbn in T'. auto.
      + unfold lost. change (b_phase (bemit [BCame msg] s)) with (b_phase s). rewrite P.
        apply (concl_err done (n :: rest) t (BSearchFor (search_for bb owner n nw) :: map BCame (ms ++ [msg])) ELostConn _ A R); [constructor|discriminate|exact T'].
    - destruct I as (done & t & nw & ms & b & p & A & R & AS & U & W & T). cbn zeta.
      assert (T' : b_trace (bemit [BCame msg] s) = t ++ BSearchFor (search_for bb owner n nw) :: map BCame ms ++ [BBindAs (bind_as b p); BCame msg]) by (cbn; rewrite T, <- !app_assoc; cbn; rewrite <- app_assoc; reflexivity).
      destruct (bind_msg msg) as [u|x] eqn:BM.
      + destruct u. apply bind_msg_ok in BM. cbn in T' |- *. rewrite T', <- app_assoc. apply (En_success io bb owner (the_pw auth) services fallback req done n rest t _ _ A R); [econstructor; eauto|reflexivity].
      + destruct (bind_msg_err msg x BM) as [N49 NZ]. apply (loope_inv x now up _ done n rest t (BSearchFor (search_for bb owner n nw) :: map BCame ms ++ [BBindAs (bind_as b p); BCame msg])); auto.
        * intros E. eapply Us_refused; eauto.
        * apply (Un_bind io bb owner (the_pw auth) n rest nw ms (y_dn c) b p [msg]); auto.
    - destruct I as (t & vs & F & R & T). cbn zeta.
      assert (T' : b_trace (bemit [BCame msg; BReply msg] s) = t ++ passed_back req (vs ++ [msg])) by (cbn; rewrite T, <- app_assoc; unfold passed_back; cbn; rewrite flat_map_app; reflexivity).
      destruct (last_response msg).
      + cbn in T' |- *. rewrite T'. now constructor.
      + unfold binv. change (b_phase (bemit [BCame msg; BReply msg] s)) with (b_phase s). rewrite P. eauto.
    - unfold binv. now rewrite P.
  Qed.
  Lemma start_inv now up : binv (start now up).
  Proof.
    unfold b_start. cbn zeta. assert (F : forall x, (forall c, x = ELdap c -> c <> 0) -> binv (concl (Err x) (mkB BDone []))).
    { intros x X. apply (concl_err [] services [] [] x); auto; constructor. }
    destruct (negb (version =? 3)); [apply F; intros c E; injection E as <-; discriminate|].
    destruct (checkControls controls) as [u|x] eqn:CC.
    - destruct services eqn:SV; [apply F; discriminate|]. rewrite <- SV. apply (trys_inv services now up (mkB BDone []) [] []); auto. constructor.
    - apply F. intros c E. subst x. eapply checkControls_not_0; eauto.
  Qed.
  Lemma run_inv now up es : binv (fold_left step es (start now up)).
  Proof. assert (G : forall l s, binv s -> binv (fold_left step l s)). { induction l as [|e l IH]; intros s I; [exact I|]. apply IH. now apply step_inv. } apply G, start_inv. Qed.
  Lemma run_conv now up es : conv (b_trace (fold_left step es (start now up))).
  Proof.
    pose proof (run_inv now up es) as I. destruct (fold_left step es (start now up)) as [p tr]. unfold binv in I. cbn [b_phase b_trace] in *. destruct p as [n rest acc|n rest c| |].
    - destruct I as (done & t & nw & ms & A & R & _ & _ & ->). apply (Cv_going io bb owner (the_pw auth) services fallback req done (n :: rest) t _ A R). constructor.
    - destruct I as (done & t & nw & ms & b & q & A & R & AS & U & W & ->). apply (Cv_going io bb owner (the_pw auth) services fallback req done (n :: rest) t _ A R). apply (Un_bind io bb owner (the_pw auth) n rest nw ms (y_dn c) b q []); auto.
    - destruct I as (t & vs & F & R & ->). apply Cv_ended. now constructor.
    - now apply Cv_ended.
  Qed.

  (** The phase shows in the trace *)
  Lemma ends_reply s : b_phase s = BDone -> binv s -> exists t v, b_trace s = t ++ [v] /\ match v with BReply _ | BForwarded _ => True | _ => False end.
  Proof.
    intros P I. unfold binv in I. rewrite P in I. destruct I as [done n rest t r v _ _ _ _|t v _ _ _|t vs _ _|done rest t r v _ _ _ _]; try (eexists (_ ++ _); eexists; split; [rewrite <- app_assoc; reflexivity|exact I]).
    - exists t, (BReply v). now split.
    - destruct (list_snoc vs) as [->|(vs' & v & ->)].
      + exists t, (BForwarded req). now split.
      + exists (t ++ BForwarded req :: flat_map (fun v => [BCame v; BReply v]) vs' ++ [BCame v]), (BReply v). split; [|exact I]. unfold passed_back. rewrite flat_map_app. cbn. rewrite <- !app_assoc. cbn. rewrite <- app_assoc. reflexivity.
  Qed.
  Lemma passing_ends vs : forall t t' e, t ++ passed_back req vs = t' ++ [e] -> match e with BReply _ | BForwarded _ => True | _ => False end.
  Proof.
    intros t t' e H. destruct (list_snoc vs) as [->|(vs' & v & ->)].
    - apply app_inj_tail in H as [_ <-]. exact I.
    - unfold passed_back in H. rewrite flat_map_app in H. cbn in H.
      replace (t ++ BForwarded req :: flat_map (fun v => [BCame v; BReply v]) vs' ++ [BCame v; BReply v]) with ((t ++ BForwarded req :: flat_map (fun v => [BCame v; BReply v]) vs' ++ [BCame v]) ++ [BReply v]) in H by (rewrite <- app_assoc; cbn; rewrite <- app_assoc; reflexivity).
      apply app_inj_tail in H as [_ <-]. exact I.
  Qed.
  Lemma at_bind s t q : binv s -> b_trace s = t ++ [BBindAs q] -> exists n rest c, b_phase s = BBinding n rest c.
  Proof.
    intros I T. destruct (b_phase s) as [n rest acc|n rest c| |] eqn:P; [| eauto | |].
    - unfold binv in I; rewrite P in I. destruct I as (done & t' & nw & ms & _ & _ & _ & _ & T'). rewrite T' in T. now apply came_ends in T.
    - unfold binv in I; rewrite P in I. destruct I as (t' & vs & _ & _ & T'). rewrite T' in T. now apply passing_ends in T.
    - destruct (ends_reply s P I) as (t' & v & T' & V). rewrite T' in T. apply app_inj_tail in T as [_ ->]. destruct V.
  Qed.
  Lemma at_search s t q ms : binv s -> b_trace s = t ++ BSearchFor q :: map BCame ms -> exists n rest acc done nw, b_phase s = BSearching n rest acc /\ services = done ++ n :: rest /\ rnds done t /\
    q = search_for bb owner n nw /\ search_parts io ms (map y_dn (q_found acc)) /\ q_end acc = None.
  Proof.
    intros I T. destruct (b_phase s) as [n rest acc|n rest c| |] eqn:P.
    - unfold binv in I; rewrite P in I. destruct I as (done & t' & nw & ms' & A & R & SP & Q & T'). rewrite T' in T. apply came_cut in T as (-> & <- & ->). repeat eexists; eauto.
    - unfold binv in I; rewrite P in I. destruct I as (done & t' & nw & ms' & b & p & _ & _ & _ & _ & _ & T'). rewrite T' in T. symmetry in T.
      replace (t' ++ BSearchFor (search_for bb owner n nw) :: map BCame ms' ++ [BBindAs (bind_as b p)]) with ((t' ++ BSearchFor (search_for bb owner n nw) :: map BCame ms') ++ [BBindAs (bind_as b p)]) in T by (rewrite <- app_assoc; reflexivity). now apply came_ends in T.
    - unfold binv in I; rewrite P in I. destruct I as (t' & vs & _ & _ & T'). rewrite T' in T. destruct (list_snoc ms) as [->|(ms' & m & ->)].
      + now apply passing_ends in T.
      + rewrite map_app in T. change (t' ++ passed_back req vs = t ++ (BSearchFor q :: map BCame ms') ++ [BCame m]) in T. rewrite app_assoc in T. now apply passing_ends in T.
    - destruct (ends_reply s P I) as (t' & v & T' & V). rewrite T' in T. symmetry in T. apply came_ends in T. destruct v; contradiction.
  Qed.

  (** After a round that did not help *)
  Lemma trys_goes_on now rest s : incl rest services -> exists e, goes_on bb owner services fallback req e /\ b_trace (trys now true d rest s) = b_trace s ++ [e].
  Proof.
    intros IN. destruct rest as [|n r]; cbn [try_service].
    - unfold conclude. destruct fallback eqn:F; (eexists; split; [|cbn; reflexivity]).
      + right; left. now split.
      + right; right. now split.
    - unfold c_search. cbn [check y_deleted new_cent bind]. change (y_dn (new_cent lower d [])) with d. unfold text_pv. rewrite Hbb. cbn [bind net_of send map b_wait bemit b_trace].
      eexists; split; [|reflexivity]. left. exists n, now. split; [apply IN; now left|reflexivity].
  Qed.
  Lemma goes_bind s t q v now up : binv s -> b_trace s = t ++ [BBindAs q] -> bind_result 0 v ->
    b_trace (step s (BMsg now up v)) = b_trace s ++ [BCame v; BReply (OResult KBindResp (class_tag KBindResp) (VInt 0) (VBytes owner) (VBytes []) VNone)].
  Proof.
    intros I T R. destruct (at_bind s t q I T) as (n & rest & c & P). unfold b_step. destruct R as (t0 & d0 & m0 & c0 & ->). cbn [is_response negb]. rewrite P. cbn [bind_msg code_check]. cbn. rewrite <- app_assoc. reflexivity.
  Qed.
  Lemma goes_refused s t q v now : binv s -> b_trace s = t ++ [BBindAs q] -> bind_result 49 v ->
    exists e, goes_on bb owner services fallback req e /\ b_trace (step s (BMsg now true v)) = b_trace s ++ [BCame v; e].
  Proof.
    intros I T R. destruct (at_bind s t q I T) as (n & rest & c & P). assert (IN : incl rest services).
    { unfold binv in I. rewrite P in I. destruct I as (done & t' & nw & ms' & b & p & -> & _). intros x X. apply in_or_app. right. now right. }
    unfold b_step. destruct R as (t0 & d0 & m0 & c0 & ->). cbn [is_response negb]. rewrite P. cbn [bind_msg code_check loop_error].
    destruct (trys_goes_on now rest (bemit [BCame (OResult KBindResp t0 (VInt 49) d0 m0 c0)] s) IN) as (e & G & E). exists e. split; [exact G|]. rewrite E. cbn. rewrite <- app_assoc. reflexivity.
  Qed.
  Lemma goes_search s t q ms v ds now : binv s -> b_trace s = t ++ BSearchFor q :: map BCame ms -> answers_search io (ms ++ [v]) ds ->
    match ds with
    | [] => exists e, goes_on bb owner services fallback req e /\ b_trace (step s (BMsg now true v)) = b_trace s ++ [BCame v; e]
    | [x] => forall b p, utf8_encode (dn_text x) = Ok b -> (the_pw auth) = Some p -> b_trace (step s (BMsg now true v)) = b_trace s ++ [BCame v; BBindAs (bind_as b p)]
    | _ => exists e, error_reply e /\ b_trace (step s (BMsg now true v)) = b_trace s ++ [BCame v; BReply e]
    end.
  Proof.
    intros I T A. destruct (at_search s t q ms I T) as (n & rest & acc & done & nw & P & SV & R & -> & SP & Q). apply answers_search_last in A as [SP' (t0 & code & m & c & CO & ->)].
    pose proof (search_parts_fun io ms _ SP' _ SP) as ->.
    assert (ST : step s (BMsg now true (OResult KSearchDone t0 (VInt code) (VBytes []) m c)) = gote now true d n rest (q_found acc) (bemit [BCame (OResult KSearchDone t0 (VInt code) (VBytes []) m c)] s)).
    { unfold b_step. cbn [is_response negb]. rewrite P. destruct CO as [-> | ->]; reflexivity. }
    rewrite ST. assert (IN : incl rest services) by (rewrite SV; intros x X; apply in_or_app; right; now right).
    set (s' := bemit [BCame (OResult KSearchDone t0 (VInt code) (VBytes []) m c)] s). assert (T' : b_trace s' = b_trace s ++ [BCame (OResult KSearchDone t0 (VInt code) (VBytes []) m c)]) by reflexivity. clearbody s'.
    destruct (q_found acc) as [|y [|y' l]]; cbn [map got_entries].
    - destruct (trys_goes_on now rest s' IN) as (e & G & E). exists e. split; [exact G|]. rewrite E, T', <- app_assoc. reflexivity.
    - intros b p U W. destruct (e_bind_cases true y) as [(p' & W' & ->)|[W' _]]; [|congruence]. rewrite W in W'. injection W' as <-. unfold c_bind, text_pv. rewrite U. cbn [bind net_of send map b_wait bemit b_trace]. rewrite T', <- app_assoc. reflexivity.
    - cbn. exists (b_error text EAssert). split; [apply error_is; discriminate|]. rewrite T', <- app_assoc. reflexivity.
  Qed.

  (** Until the final response has come, or the connection is lost, what comes is passed back *)
  Definition nofwd (s : bst) : Prop := forall r, ~ In (BForwarded r) (b_trace s).
  Definition winv (s : bst) : Prop :=
    match b_phase s with
    | BPassing => True
    | BDone => nofwd s \/ exists t v, last_response v = true /\ b_trace s = t ++ [BCame v; BReply v]
    | _ => nofwd s
    end.
  Lemma nofwd_emit l s : nofwd s -> (forall r, ~ In (BForwarded r) l) -> nofwd (bemit l s).
  Proof. intros N L r. cbn. rewrite in_app_iff. intros [X|X]; [now apply (N r)|now apply (L r)]. Qed.
  Lemma nofwd_map (f : obj -> bev) l : (forall r x, f x <> BForwarded r) -> forall r, ~ In (BForwarded r) (map f l).
  Proof. intros F r X. apply in_map_iff in X as (y & E & _). now apply (F r y). Qed.
  Lemma concl_w r s : nofwd s -> winv (concl r s).
  Proof.
    intros N. unfold conclude. destruct r as [[c|]|x].
    - left. apply nofwd_emit; auto. intros r [X|[]]. discriminate.
    - destruct fallback; [exact I|]. left. apply nofwd_emit; auto. intros r [X|[]]. discriminate.
    - left. apply nofwd_emit; auto. intros r [X|[]]. discriminate.
  Qed.
  Lemma trys_w now up rest s : nofwd s -> winv (trys now up d rest s).
  Proof.
    intros N. destruct rest as [|n r]; cbn [try_service]; [now apply concl_w|]. destruct (c_search _ _ _ _ _ _ _ _ _) as [l [v|x]].
    - unfold winv. cbn [b_phase b_wait]. apply (nofwd_emit (map BSearchFor l) s N). apply nofwd_map. discriminate.
    - apply concl_w. apply nofwd_emit; auto. apply nofwd_map. discriminate.
  Qed.
  Lemma loope_w x now up rest s : nofwd s -> winv (loope x now up d rest s).
  Proof.
    intros N. unfold loop_error.
    assert (E : match x with ELdap 49 => trys now up d rest s | _ => concl (Err x) s end = trys now up d rest s \/ match x with ELdap 49 => trys now up d rest s | _ => concl (Err x) s end = concl (Err x) s).
    { destruct x as [| | | | | | | | | | | |z|]; try (right; reflexivity). destruct (Z.eq_dec z 49) as [->|D]; [now left|right]. destruct z as [|p|p]; try reflexivity. do 6 (destruct p as [p|p|]; try reflexivity). congruence. }
    destruct E as [-> | ->]; [now apply trys_w|now apply concl_w].
  Qed.
  Lemma gote_w now up n rest es s : nofwd s -> winv (gote now up d n rest es s).
  Proof.
    intros N. destruct es as [|c [|c' es]]; cbn [got_entries]; [now apply trys_w| |now apply loope_w]. destruct (e_bind auth up c) as [l [v|x]].
    - unfold winv. cbn [b_phase b_wait]. apply (nofwd_emit (map BBindAs l) s N). apply nofwd_map. discriminate.
    - apply loope_w. apply nofwd_emit; auto. apply nofwd_map. discriminate.
  Qed.
  Lemma step_w s now up v : is_response v = true -> winv s -> winv (step s (BMsg now up v)).
  Proof.
    intros R W. unfold b_step. rewrite R. cbn [negb].
    assert (NC : nofwd s -> nofwd (bemit [BCame v] s)) by (intros N; apply nofwd_emit; auto; intros r [X|[]]; discriminate).
    destruct (b_phase s) as [n rest acc|n rest c| |] eqn:P; unfold winv in W; rewrite P in W; cbn zeta.
    - specialize (NC W). destruct (search_msg lower io false v acc) as [acc' [[|]|x]].
      + destruct (q_end acc') as [[u|x]|]; [now apply gote_w|now apply loope_w|now apply gote_w].
      + exact NC.
      + unfold lost. change (b_phase (bemit [BCame v] s)) with (b_phase s). rewrite P. now apply concl_w.
    - specialize (NC W). destruct (bind_msg v) as [u|x]; [now apply concl_w|now apply loope_w].
    - destruct (last_response v) eqn:L.
      + right. exists (b_trace s), v. now split.
      + unfold winv. change (b_phase (bemit [BCame v; BReply v] s)) with (b_phase s). now rewrite P.
    - unfold winv. now rewrite P.
  Qed.
  Lemma start_w now up : winv (start now up).
  Proof.
    assert (N : nofwd (mkB BDone [])) by (intros r []). unfold b_start. destruct (negb _); [now apply concl_w|]. destruct (checkControls controls); [|now apply concl_w]. destruct services; [now apply concl_w|now apply trys_w].
  Qed.
  Lemma run_w now up es : Forall heard es -> winv (fold_left step es (start now up)).
  Proof.
    assert (G : forall l s, winv s -> Forall heard l -> winv (fold_left step l s)). { induction l as [|e l IH]; intros s W H; [exact W|]. apply Forall_cons_iff in H as [H HL]. apply IH; [|exact HL]. destruct e as [nw u v|]; [now apply step_w|destruct H]. }
    apply G, start_w.
  Qed.
  Lemma goes_passing s t r vs v now up : binv s -> winv s -> b_trace s = t ++ passed_back r vs -> Forall (fun v => last_response v = false) vs -> is_response v = true ->
    b_trace (step s (BMsg now up v)) = b_trace s ++ [BCame v; BReply v].
  Proof.
    intros I W T L R. assert (F : ~ nofwd s) by (intros N; apply (N r); rewrite T; apply in_or_app; right; now left).
    destruct (b_phase s) as [n rest acc|n rest c| |] eqn:P; unfold winv in W; rewrite P in W; try contradiction.
    - unfold b_step. rewrite R. cbn [negb]. rewrite P. cbn zeta. now destruct (last_response v).
    - exfalso. destruct W as [W|(t' & w & LW & T')]; [contradiction|]. rewrite T' in T. destruct (list_snoc vs) as [->|(vs' & u & ->)].
      + change (t ++ passed_back r []) with (t ++ [BForwarded r]) in T. replace (t' ++ [BCame w; BReply w]) with ((t' ++ [BCame w]) ++ [BReply w]) in T by (rewrite <- app_assoc; reflexivity). apply app_inj_tail in T as [_ E]. discriminate.
      + unfold passed_back in T. rewrite flat_map_app in T. cbn in T. replace (t ++ BForwarded r :: flat_map (fun v => [BCame v; BReply v]) vs' ++ [BCame u; BReply u]) with ((t ++ BForwarded r :: flat_map (fun v => [BCame v; BReply v]) vs' ++ [BCame u]) ++ [BReply u]) in T by (rewrite <- app_assoc; cbn; rewrite <- app_assoc; reflexivity).
        replace (t' ++ [BCame w; BReply w]) with ((t' ++ [BCame w]) ++ [BReply w]) in T by (rewrite <- app_assoc; reflexivity). apply app_inj_tail in T as [_ E]. injection E as ->. apply Forall_app in L as [_ L]. apply Forall_cons_iff in L as [L _]. congruence.
  Qed.
  Lemma refused_start now up es : version <> 3 \/ (version = 3 /\ exists x, checkControls controls = Err x) ->
    exists v, error_reply v /\ b_trace (fold_left step es (start now up)) = [BReply v].
  Proof.
    intros H. assert (S : exists v, error_reply v /\ start now up = mkB BDone [BReply v]).
    { unfold b_start. destruct (Z.eqb_spec version 3) as [E|N]; cbn [negb].
      - destruct H as [H|[_ [x H]]]; [contradiction|]. rewrite H. cbn. eexists; split; [|reflexivity]. apply error_is. intros c ->. eapply checkControls_not_0; eauto.
      - cbn. eexists; split; [|reflexivity]. apply (error_is (ELdap 2)). intros c E. injection E as <-. discriminate. }
    destruct S as (v & V & ->). exists v. split; [exact V|].
    assert (G : forall l, fold_left step l (mkB BDone [BReply v]) = mkB BDone [BReply v]). { induction l as [|e l IH]; [reflexivity|]. cbn [fold_left]. replace (step (mkB BDone [BReply v]) e) with (mkB BDone [BReply v]); [exact IH|]. destruct e as [nw u w|nw]; [|reflexivity]. unfold b_step. now destruct (negb (is_response w)). }
    now rewrite G.
  Qed.
End Run.

(** What a conversation is *)
Section About.
  Variable io : Z -> Z -> res Z.
  Variable base owner : bytes.
  Variable pw : option bytes.
  Lemma searches_app a b : searches (a ++ b) = searches a ++ searches b. Proof. apply flat_map_app. Qed.
  Lemma replies_app a b : replies (a ++ b) = replies a ++ replies b. Proof. apply flat_map_app. Qed.
  Lemma searches_came ms : searches (map BCame ms) = []. Proof. induction ms; auto. Qed.
  Lemma replies_came ms : replies (map BCame ms) = []. Proof. induction ms; auto. Qed.
  Lemma useless_about n r : useless io base owner pw n r -> (exists q, asks base owner q n /\ searches r = [q]) /\ replies r = [].
  Proof.
    intros U; destruct U as [now ms A|now ms d b p v A U W B|now ms ds t d m c P]; (split; [exists (search_for base owner n now); split; [now exists now|]|]).
    - cbn. fold (searches (map BCame ms)). now rewrite searches_came.
    - apply (replies_came ms).
    - change (search_for base owner n now :: searches (map BCame ms ++ [BBindAs (bind_as b p); BCame v]) = [search_for base owner n now]). now rewrite searches_app, searches_came.
    - change (replies (map BCame ms ++ [BBindAs (bind_as b p); BCame v]) = []). now rewrite replies_app, replies_came.
    - match goal with |- searches (_ :: ?l) = _ => change (search_for base owner n now :: searches l = [search_for base owner n now]) end. now rewrite searches_came.
    - match goal with |- replies (_ :: ?l) = _ => change (replies l = []) end. now rewrite replies_came.
  Qed.
  Lemma rounds_about ns t : rounds io base owner pw ns t -> Forall2 (asks base owner) (searches t) ns /\ replies t = [].
  Proof.
    induction 1 as [|ns t n r R [IHs IHr] U]; [split; [constructor|reflexivity]|]. destruct (useless_about n r U) as [(q & Q & E) RR]. rewrite searches_app, replies_app, E, IHr, RR. split; [|reflexivity]. apply Forall2_app; [exact IHs|]. constructor; [exact Q|constructor].
  Qed.
  Lemma unfinished_about ns r : unfinished io base owner pw ns r -> replies r = [] /\ exists a b, ns = a ++ b /\ Forall2 (asks base owner) (searches r) a.
  Proof.
    intros U; destruct U as [ns|n ns now ms|n ns now ms d b p vs A E W].
    - split; [reflexivity|]. exists [], ns. split; [reflexivity|constructor].
    - split; [apply (replies_came ms)|]. exists [n], ns. split; [reflexivity|]. change (Forall2 (asks base owner) (search_for base owner n now :: searches (map BCame ms)) [n]). rewrite searches_came. constructor; [now exists now|constructor].
    - split; [change (replies (map BCame ms ++ BBindAs (bind_as b p) :: map BCame vs) = []); rewrite replies_app, replies_came; apply (replies_came vs)|]. exists [n], ns. split; [reflexivity|].
      change (Forall2 (asks base owner) (search_for base owner n now :: searches (map BCame ms ++ BBindAs (bind_as b p) :: map BCame vs)) [n]). rewrite searches_app, searches_came. change (searches (BBindAs (bind_as b p) :: map BCame vs)) with (searches (map BCame vs)). rewrite searches_came. constructor; [now exists now|constructor].
  Qed.
  Lemma accepted_about n r : accepted io base owner pw n r -> replies r = [] /\ exists q, asks base owner q n /\ searches r = [q].
  Proof.
    intros A; destruct A as [now ms d b p v A U W B]. split.
    - change (replies (map BCame ms ++ [BBindAs (bind_as b p); BCame v]) = []). now rewrite replies_app, replies_came.
    - exists (search_for base owner n now). split; [now exists now|]. change (search_for base owner n now :: searches (map BCame ms ++ [BBindAs (bind_as b p); BCame v]) = [search_for base owner n now]). now rewrite searches_app, searches_came.
  Qed.
  Lemma passed_about req vs : searches (passed_back req vs) = [] /\ replies (passed_back req vs) = vs.
  Proof. unfold passed_back. split; [change (searches (flat_map (fun v => [BCame v; BReply v]) vs) = [])|change (replies (flat_map (fun v => [BCame v; BReply v]) vs) = vs)]; (induction vs as [|v vs IH]; [reflexivity|]); [exact IH|]. cbn. now f_equal. Qed.
  Lemma conversation_order services fallback req t : conversation io base owner pw services fallback req t -> exists ns rest, services = ns ++ rest /\ Forall2 (asks base owner) (searches t) ns.
  Proof.
    assert (J : forall done rest t r, services = done ++ rest -> rounds io base owner pw done t -> unfinished io base owner pw rest r -> exists ns rest', services = ns ++ rest' /\ Forall2 (asks base owner) (searches (t ++ r)) ns).
    { intros done rest t0 r E R U. destruct (rounds_about _ _ R) as [S _]. destruct (unfinished_about _ _ U) as (_ & a & b & -> & S'). exists (done ++ a), b. rewrite <- app_assoc. split; [exact E|]. rewrite searches_app. now apply Forall2_app. }
    intros C; destruct C as [done rest t r E R U|t C]; [now apply (J done rest)|]. destruct C as [done n rest t r v E R A V|t v F R V|t vs F R|done rest t r v E R U V].
    - destruct (rounds_about _ _ R) as [S _]. destruct (accepted_about _ _ A) as (_ & q & Q & S'). exists (done ++ [n]), rest. rewrite <- app_assoc. split; [exact E|]. rewrite !searches_app, S'. apply Forall2_app; [exact S|]. cbn. constructor; [exact Q|constructor].
    - destruct (rounds_about _ _ R) as [S _]. exists services, []. rewrite app_nil_r. split; [reflexivity|]. rewrite searches_app. cbn. now rewrite app_nil_r.
    - destruct (rounds_about _ _ R) as [S _]. exists services, []. rewrite app_nil_r. split; [reflexivity|]. rewrite searches_app. destruct (passed_about req vs) as [-> _]. now rewrite app_nil_r.
    - destruct (J done rest t r E R U) as (ns & rest' & E' & S). exists ns, rest'. split; [exact E'|]. rewrite app_assoc, searches_app. cbn. now rewrite app_nil_r.
  Qed.
  (** Where a successful reply comes from *)
  Lemma conversation_success services fallback req t v : conversation io base owner pw services fallback req t -> In v (replies t) -> bind_result 0 v ->
    (exists done n rest t0 r, services = done ++ n :: rest /\ rounds io base owner pw done t0 /\ accepted io base owner pw n r /\ t = t0 ++ r ++ [BReply v]) \/
    (fallback = true /\ exists t0 vs, rounds io base owner pw services t0 /\ t = t0 ++ passed_back req vs /\ In v vs).
  Proof.
    intros C; destruct C as [done rest t r E R U|t C].
    - destruct (rounds_about _ _ R) as [_ RR]. destruct (unfinished_about _ _ U) as [RU _]. rewrite replies_app, RR, RU. intros [].
    - destruct C as [done n rest t r w E R A W|t w F R W|t vs F R|done rest t r w E R U W].
      + destruct (rounds_about _ _ R) as [_ RR]. destruct (accepted_about _ _ A) as [RA _]. rewrite !replies_app, RR, RA. cbn. intros [<-|[]] _. left. exists done, n, rest, t, r. auto.
      + destruct (rounds_about _ _ R) as [_ RR]. rewrite replies_app, RR. cbn. intros [<-|[]] (a & b & c & e & X). subst w. discriminate.
      + destruct (rounds_about _ _ R) as [_ RR]. rewrite replies_app, RR. destruct (passed_about req vs) as [_ ->]. cbn. intros IN _. right. split; [exact F|]. exists t, vs. auto.
      + destruct (rounds_about _ _ R) as [_ RR]. destruct (unfinished_about _ _ U) as [RU _]. rewrite !replies_app, RR, RU. cbn. intros [<-|[]] (a & b & c & e & X). destruct W as (z & m & NZ & ->). injection X as _ X. congruence.
  Qed.
  (** The proxy's own reply is the only one and comes last *)
  Lemma conversation_one services fallback req t : conversation io base owner pw services fallback req t -> (forall r, ~ In (BForwarded r) t) -> replies t = [] \/ exists t0 v, t = t0 ++ [BReply v] /\ replies t0 = [].
  Proof.
    intros C NF; destruct C as [done rest t r E R U|t C].
    - left. destruct (rounds_about _ _ R) as [_ RR]. destruct (unfinished_about _ _ U) as [RU _]. now rewrite replies_app, RR, RU.
    - right. destruct C as [done n rest t r w E R A W|t w F R W|t vs F R|done rest t r w E R U W]; destruct (rounds_about _ _ R) as [_ RR].
      + exists (t ++ r), w. rewrite <- app_assoc. split; [reflexivity|]. rewrite replies_app, RR. now destruct (accepted_about _ _ A) as [-> _].
      + exists t, w. auto.
      + exfalso. apply (NF req). apply in_or_app. right. now left.
      + exists (t ++ r), w. rewrite <- app_assoc. split; [reflexivity|]. rewrite replies_app, RR. now destruct (unfinished_about _ _ U) as [-> _].
  Qed.
End About.
