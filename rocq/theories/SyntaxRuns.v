(** Proofs about client-side entries: interleavings of edits and commits, deleted entries, searches. *)
From Verif Require Import Base BaseFacts Utf8Model Utf8Proofs DnModel DnSpec EntryModel EntrySpec EntryProofs LdapModel LdapSpec DeltaModel DeltaProofs LdifModel ServerModel ServerSpec InmemProofs
  InmemModel ServerMap SyntaxModel SyntaxSpec SyntaxProofs.

Section Runs.
  Variable lower : str -> str.
  Variable io : Z -> Z -> res Z.
  Variable oc_first : bool.

  (** *** Interleavings (C44) *)
  Lemma commit_carries net c l r m : c_commit net c = (l, r) -> In m (y_journal c) -> l = [] \/ exists o, l = [o] /\ carries o m.
  Proof.
    unfold c_commit. destruct (check c); [|intros [= <- _]; now left]. destruct (y_journal c) as [|j js] eqn:J; [intros [= <- _]; now left|].
    destruct (as_ldap (y_dn c) (j :: js)) as [o|x] eqn:A; [|intros [= <- _]; now left]. destruct net; intros [= <- _] I; [now left|]. right. exists o. split; [reflexivity|].
    destruct (as_ldap_sends _ _ _ A) as (t & ms & T & F & ->). rewrite <- J in F. rewrite <- J in I. clear A J.
    assert (exists x, In x ms /\ to_mod m x) as (x & IX & key & vals & K & V & ->).
    { clear - F I. induction F as [|u w l1 l2 TM F IH]; [destruct I|]. destruct I as [->|I]; [exists w; split; [now left|exact TM]|]. destruct (IH I) as (x & IX & TX). exists x. split; [now right|exact TX]. }
    exists t, ms, key, vals. split; [reflexivity|]. split; [exact K|]. split; [exact V|]. unfold mod_of in IX. exact IX.
  Qed.
  Lemma commit_len net c l r : c_commit net c = (l, r) -> l = [] \/ exists o, l = [o].
  Proof.
    unfold c_commit. destruct (check c); [|intros [= <- _]; now left]. destruct (y_journal c) as [|j js] eqn:J; [intros [= <- _]; now left|].
    destruct (as_ldap (y_dn c) (j :: js)) as [o|x] eqn:A; [|intros [= <- _]; now left]. destruct net; intros [= <- _]; eauto.
  Qed.
  Lemma success_journal msg c m : In m (y_journal c) -> In m (y_journal (fst (commit_success lower oc_first msg c))) \/ y_journal (fst (commit_success lower oc_first msg c)) = [].
  Proof. unfold commit_success. destruct (_ : res (list _)); cbn [fst y_journal]; auto. Qed.
  Lemma set_method_journal m k vs c : exists l, y_journal (fst (fst (set_method m k vs c))) = y_journal c ++ l.
  Proof.
    destruct m as [v|s|v| |v]; cbn [set_method].
    - destruct (aset_add v vs); cbn; eauto.
    - cbn; eauto.
    - destruct (negb (mem v vs)); [exists []; now rewrite app_nil_r|]. destruct (can_remove k v c); [|exists []; now rewrite app_nil_r]. destruct (aset_remove v vs); cbn; eauto.
    - destruct (can_remove_all k c); [cbn; eauto|exists []; now rewrite app_nil_r].
    - exists []. now rewrite app_nil_r.
  Qed.
  Lemma edit_journal x c : exists l, y_journal (fst (c_edit lower x c)) = y_journal c ++ l.
  Proof.
    destruct x as [k m|k s|k]; cbn [c_edit].
    - unfold on_set. destruct (_ : res aset) as [a|y]; [|exists []; now rewrite app_nil_r].
      destruct (set_method_journal m (s_key a) (s_vals a) c) as (l & E). destruct (set_method m (s_key a) (s_vals a) c) as [[c' vs] r]. exists l. exact E.
    - unfold c_setitem. destruct (_ : res unit); [cbn; eauto|exists []; now rewrite app_nil_r].
    - unfold c_delitem. destruct (_ : res entry); [cbn; eauto|exists []; now rewrite app_nil_r].
  Qed.
  Lemma nstep_keeps a s m sent0 : a <> NUndo ->
    (exists new, n_sent s = sent0 ++ new /\ ((In m (y_journal (n_cent s)) /\ n_waiting s = O) \/ exists o, In o new /\ carries o m)) ->
    exists new, n_sent (nstep lower oc_first a s) = sent0 ++ new /\
      ((In m (y_journal (n_cent (nstep lower oc_first a s))) /\ n_waiting (nstep lower oc_first a s) = O) \/ exists o, In o new /\ carries o m).
  Proof.
    intros N (new & S0 & H). destruct a as [x|net|msg| |]; cbn [nstep]; [| | | |congruence].
    - exists new. split; [exact S0|]. destruct H as [(I & W)|H]; [left|right; exact H]. cbn [n_cent n_waiting]. destruct (edit_journal x (n_cent s)) as (l & E). rewrite E. split; [apply in_or_app; now left|exact W].
    - destruct (c_commit net (n_cent s)) as [l r] eqn:C. exists (new ++ l). cbn [n_sent n_cent n_waiting]. rewrite S0, app_assoc. split; [reflexivity|].
      destruct H as [(I & W)|(o & I & X)]; [|right; exists o; split; [apply in_or_app; now left|exact X]].
      destruct (commit_carries _ _ _ _ _ C I) as [->|(o & -> & X)].
      + left. split; [exact I|]. cbn [length]. rewrite W. reflexivity.
      + right. exists o. split; [apply in_or_app; right; now left|exact X].
    - destruct (n_waiting s) as [|n] eqn:W; [exists new; split; [exact S0|]; rewrite W; exact H|]. cbn [n_sent n_cent n_waiting]. exists new. split; [exact S0|].
      destruct H as [(_ & W0)|H]; [discriminate|right; exact H].
    - exists new. split; [exact S0|]. cbn [n_cent n_waiting]. destruct H as [(I & W)|H]; [left; split; [exact I|now rewrite W]|right; exact H].
  Qed.
  Lemma nrun_keeps l : forall s m sent0, ~ In NUndo l ->
    (exists new, n_sent s = sent0 ++ new /\ ((In m (y_journal (n_cent s)) /\ n_waiting s = O) \/ exists o, In o new /\ carries o m)) ->
    exists new, n_sent (nrun lower oc_first l s) = sent0 ++ new /\
      ((In m (y_journal (n_cent (nrun lower oc_first l s))) /\ n_waiting (nrun lower oc_first l s) = O) \/ exists o, In o new /\ carries o m).
  Proof.
    induction l as [|a l IH]; intros s m sent0 N H; [exact H|]. cbn [nrun fold_left]. apply IH; [intros I; apply N; now right|].
    apply nstep_keeps; [intros ->; apply N; now left|exact H].
  Qed.
  Lemma edit_not_lost s x l m : n_waiting s = O -> ~ In NUndo l -> In m (y_journal (fst (c_edit lower x (n_cent s)))) ->
    exists new, n_sent (nrun lower oc_first (NEdit x :: l) s) = n_sent s ++ new /\
      (In m (y_journal (n_cent (nrun lower oc_first (NEdit x :: l) s))) \/ exists o, In o new /\ carries o m).
  Proof.
    intros W N I. destruct (nrun_keeps l (nstep lower oc_first (NEdit x) s) m (n_sent s) N) as (new & S0 & H).
    { exists []. split; [cbn; now rewrite app_nil_r|]. left. cbn. auto. }
    exists new. split; [exact S0|]. destruct H as [(J & _)|H]; auto.
  Qed.
  (** Edits, then a commit and its answer: what was journaled is sent, all of it and nothing else, and never again. *)
  Lemma edits_run xs : forall s, nrun lower oc_first (map NEdit xs) s = mkN (fold_left (fun c x => fst (c_edit lower x c)) xs (n_cent s)) (n_sent s) (n_waiting s).
  Proof. induction xs as [|x xs IH]; intros s; [destruct s; reflexivity|]. cbn [map nrun fold_left]. unfold nrun in IH. rewrite IH. reflexivity. Qed.
  Lemma nrun_app l1 l2 s : nrun lower oc_first (l1 ++ l2) s = nrun lower oc_first l2 (nrun lower oc_first l1 s).
  Proof. apply fold_left_app. Qed.
  Lemma turn s xs msg c : n_waiting s = O -> c = n_cent (nrun lower oc_first (map NEdit xs) s) ->
    snd (c_commit None c) = Ok XNone -> snd (commit_success lower oc_first msg c) = Ok tt -> y_journal c <> [] ->
    exists b ms, Forall2 (fun m x => exists key vals, to_bytes (d_key m) = Ok key /\ mapR to_bytes (d_vals m) = Ok vals /\
                   x = mkMod (match d_kind m with MAdd => 0 | MDelete => 1 | MReplace => 2 end) key vals) (y_journal c) ms /\
      utf8_encode (dn_text (y_dn c)) = Ok b /\
      n_sent (nrun lower oc_first (map NEdit xs ++ [NCommit None; NAnswer msg]) s) = n_sent s ++ [request_obj (Modify b ms)] /\
      y_journal (n_cent (nrun lower oc_first (map NEdit xs ++ [NCommit None; NAnswer msg]) s)) = [] /\
      n_waiting (nrun lower oc_first (map NEdit xs ++ [NCommit None; NAnswer msg]) s) = O.
  Proof.
    intros W -> C A J. rewrite nrun_app. rewrite edits_run in *. cbn [n_cent] in *. set (c := fold_left _ xs (n_cent s)) in *.
    unfold c_commit in C. cbn [nrun fold_left nstep n_cent n_sent n_waiting]. unfold c_commit. destruct (check c); [|discriminate]. destruct (y_journal c) as [|j js] eqn:EJ; [congruence|].
    destruct (as_ldap (y_dn c) (j :: js)) as [o|] eqn:L; [|discriminate]. destruct (as_ldap_sends _ _ _ L) as (t & ms & T & F & ->). exists t, ms. split; [exact F|]. split; [exact T|].
    cbn [n_waiting length]. rewrite W. cbn [plus n_sent n_cent n_waiting]. split; [reflexivity|].
    unfold commit_success in A |- *. destruct (_ : res (list _)); [|discriminate]. cbn. auto.
  Qed.

  (** *** Deleted entries (C45) *)
  Lemma deleted_call net k c : y_deleted c = true -> checked k -> run_call lower oc_first net k c = (c, [], Err EDeleted).
  Proof.
    intros D H. assert (C : check c = Err EDeleted) by (unfold check; now rewrite D).
    destruct k as [k|k|k| | | |x| | |nd| |r ats|pw|old nt lm|ats|f ats sc de si ti ty|pw|d|]; cbn [checked] in H; try contradiction;
      cbn [run_call]; unfold pure, unit_call, sending, c_undo, c_commit, c_move, c_delete, c_add_child, c_set_password, c_samba, c_fetch, c_search; try (rewrite C; reflexivity).
    destruct x as [k m|k s|k]; cbn [c_edit]; unfold on_set, c_setitem, c_delitem; rewrite C; reflexivity.
  Qed.
  Lemma deleted_answer msg c : y_deleted c = true -> exists x, commit_success lower oc_first msg c = (c, Err x).
  Proof.
    intros D. unfold commit_success. destruct (good_result KModResp msg); cbn [bind]; [|eauto]. unfold check. rewrite D. cbn [bind]. eauto.
  Qed.
  Lemma delete_deletes net c c' l r : c_delete net c = (c', l, Ok r) ->
    y_deleted c' = true /\ y_entry c' = y_entry c /\ exists b, utf8_encode (dn_text (y_dn c)) = Ok b /\ l = [request_obj (Delete b)].
  Proof.
    unfold c_delete. destruct (check c) as [[]|]; cbn [bind]; [|discriminate]. destruct (utf8_encode (dn_text (y_dn c))) as [b|] eqn:E; [|discriminate]. destruct net; [discriminate|]. intros [= <- <- <-].
    split; [reflexivity|]. split; [reflexivity|]. exists b. auto.
  Qed.
  Lemma deleted_calls ks : forall c, y_deleted c = true -> Forall (fun nk => checked (snd nk)) ks ->
    calls lower oc_first ks c = (c, map (fun _ => ([], Err EDeleted)) ks).
  Proof.
    induction ks as [|(net & k) ks IH]; intros c D F; [reflexivity|]. cbn [calls map]. rewrite (deleted_call net k c D (Forall_inv F)), (IH c D (Forall_inv_tail F)). reflexivity.
  Qed.

  (** *** Searches (C46) *)
  Lemma py_dict_new k vs l : ~ In k (map fst l) -> py_dict_set k vs l = l ++ [(k, vs)].
  Proof.
    induction l as [|(k' & vs') l IH]; intros N; [reflexivity|]. cbn [py_dict_set app]. destruct (bytes_eqb_spec k k') as [->|D]; [exfalso; apply N; now left|]. rewrite IH; [reflexivity|]. intros I. apply N. now right.
  Qed.
  Lemma mapR_VBytes vs : mapR pv_to_bytes (map VBytes vs) = Ok vs.
  Proof. induction vs as [|v vs IH]; [reflexivity|]. cbn [map mapR pv_to_bytes bind]. rewrite IH. reflexivity. Qed.
  Lemma attrib_nodup ats : forall l, NoDup (map fst (l ++ ats)) -> attrib (map (fun a => (VBytes (fst a), map VBytes (snd a))) ats) l = Ok (l ++ ats).
  Proof.
    induction ats as [|(k & vs) ats IH]; intros l N; [cbn; now rewrite app_nil_r|]. cbn [map attrib fst snd pv_to_bytes bind]. rewrite mapR_VBytes. cbn [bind].
    rewrite py_dict_new; [rewrite IH; rewrite <- app_assoc; [reflexivity|exact N]|]. rewrite map_app in N. cbn [map fst] in N. apply NoDup_remove_2 in N. intros I. apply N. apply in_or_app. now left.
  Qed.
  Lemma octs_new d (ats : list (bytes * list bytes)) k v :
    octs (new_entry lower d (map (fun kv => (PBytes (fst kv), map PBytes (snd kv))) ats)) k v <-> exists k' vs, In (k', vs) ats /\ lower_bytes k' = k /\ In v vs.
  Proof.
    set (its := map _ ats).
    assert (KB : forall a, In a (e_attrs (new_entry lower d its)) -> exists b, s_key a = PBytes b).
    { intros a I. unfold new_entry in I. cbn [e_attrs] in I. apply in_map_iff in I as (a0 & <- & I). destruct (init_loop_ok lower its [] (NoDup_nil _)) as (_ & A).
      destruct (A a0 I) as [(z & [] & _)|(vs & I1 & _)]. apply in_map_iff in I1 as (kv & E & _). cbn [s_key]. injection E as E _. rewrite <- E. eauto. }
    assert (SP := fun kk vv => proj2 (new_entry_spec lower d its kk vv)).
    split.
    - intros (a & kb & I & K & L & x & IV & X). destruct (KB a I) as (b & E). rewrite E in K. apply Ok_inj in K. subst b.
      assert (H : EntrySpec.holds lower (new_entry lower d its) (PBytes kb) x) by (exists a; rewrite E; auto).
      apply SP in H as (k' & vs & I1 & L1 & IV1). apply in_map_iff in I1 as ((k0 & vs0) & [= <- <-] & I1). cbn [EntryModel.lowv] in L1. injection L1 as L1.
      apply in_map_iff in IV1 as (b & <- & IV1). apply Ok_inj in X. subst v. exists k0, vs0. split; [exact I1|]. split; [congruence|exact IV1].
    - intros (k' & vs & I & L & IV).
      assert (H : EntrySpec.holds lower (new_entry lower d its) (PBytes k') (PBytes v)).
      { apply SP. exists (PBytes k'), (map PBytes vs). split; [apply in_map_iff; exists (k', vs); auto|]. split; [reflexivity|]. now apply in_map. }
      destruct H as (a & I1 & L1 & IV1). destruct (KB a I1) as (b & E). rewrite E in L1. cbn [EntryModel.lowv] in L1. injection L1 as L1.
      exists a, b. split; [exact I1|]. rewrite E. split; [reflexivity|]. split; [congruence|]. exists (PBytes v). auto.
  Qed.
  Lemma search_entry_sent dn ats : search_part io (SearchEntry dn ats) ->
    exists c, search_entry lower io (VBytes dn) (map (fun a => (VBytes (fst a), map VBytes (snd a))) ats) = Ok c /\ entry_sent io (SearchEntry dn ats) c.
  Proof.
    intros ((t & d & T & P) & N). unfold search_entry. rewrite (attrib_nodup ats [] N). cbn [bind app to_dn]. rewrite T. cbn [bind]. rewrite P. cbn [bind]. eexists. split; [reflexivity|].
    cbn [entry_sent new_cent y_entry y_remote y_journal y_deleted y_dn]. split; [exists t; split; [exact T|exact P]|]. split; [intros k v; apply octs_new|]. auto.
  Qed.
  Lemma search_parts lax rs : forall s, Forall (search_part io) rs ->
    exists cs, Forall2 (entry_sent io) (List.filter is_entry rs) cs /\
      forall rest, search_run lower io lax (map response_obj rs ++ rest) s = search_run lower io lax rest (mkSres (q_found s ++ cs) (q_end s)).
  Proof.
    induction rs as [|r rs IH]; intros s F.
    - exists []. split; [constructor|]. intros rest. rewrite app_nil_r. destruct s. reflexivity.
    - pose proof (Forall_inv F) as P. apply Forall_inv_tail in F. destruct r as [| dn ats | | us | | | | | | ]; try contradiction.
      + destruct (search_entry_sent dn ats P) as (c & E & S0). destruct (IH (mkSres (q_found s ++ [c]) (q_end s)) F) as (cs & F2 & H).
        exists (c :: cs). split; [constructor; [exact S0|exact F2]|]. intros rest. cbn [map app search_run search_msg response_obj]. rewrite E, H. cbn [q_found q_end]. now rewrite <- app_assoc.
      + destruct (IH s F) as (cs & F2 & H). exists cs. split; [exact F2|]. intros rest. cbn [map app search_run search_msg response_obj]. apply H.
  Qed.
  Lemma search_outcome lax rs : Forall (search_part io) rs ->
    exists cs, Forall2 (entry_sent io) (List.filter is_entry rs) cs /\
      search_run lower io lax (map response_obj rs) (mkSres [] None) = mkSres cs None /\
      forall res extra,
        let s := search_run lower io lax (map response_obj rs ++ response_obj (SearchDone res) :: extra) (mkSres [] None) in
        (r_code res = 0 -> r_dn res = [] -> s = mkSres cs (Some (Ok tt))) /\
        (r_code res <> 0 -> r_code res <> 4 -> s = mkSres cs (Some (Err (ELdap (r_code res))))) /\
        (r_code res = 4 -> r_dn res = [] -> s = mkSres cs (Some (Ok tt))).
  Proof.
    intros F. destruct (search_parts lax rs (mkSres [] None) F) as (cs & F2 & H). exists cs. split; [exact F2|]. split; [rewrite <- (app_nil_r (map _ rs)), H; reflexivity|].
    intros [code dn msg] extra. cbn [r_code r_dn]. cbn zeta. rewrite H. cbn [q_found q_end app search_run response_obj result_obj search_msg r_code r_dn r_msg]. split; [|split].
    - intros -> ->. reflexivity.
    - intros N0 N4. destruct code as [|p|p]; [congruence| |reflexivity]. destruct p as [p|p|]; try reflexivity. destruct p as [p|p|]; try reflexivity. destruct p; try reflexivity. congruence.
    - intros -> ->. destruct lax; reflexivity.
  Qed.

  (** A response that does not belong to a search, or an entry whose DN cannot be read, ends it *)
  Lemma search_stops lax rs : Forall (search_part io) rs ->
    exists cs, Forall2 (entry_sent io) (List.filter is_entry rs) cs /\ forall extra,
      (forall r, match r with SearchEntry _ _ => False | SearchReference _ => False | SearchDone _ => False | _ => True end ->
         search_run lower io lax (map response_obj rs ++ response_obj r :: extra) (mkSres [] None) = mkSres cs (Some (Err (ELdap 2)))) /\
      (forall dn ats x, NoDup (map fst ats) -> utf8_decode dn = Err x ->
         search_run lower io lax (map response_obj rs ++ response_obj (SearchEntry dn ats) :: extra) (mkSres [] None) = mkSres cs (Some (Err x))) /\
      (forall dn ats t x, NoDup (map fst ats) -> utf8_decode dn = Ok t -> parse_dn io t = Err x ->
         search_run lower io lax (map response_obj rs ++ response_obj (SearchEntry dn ats) :: extra) (mkSres [] None) = mkSres cs (Some (Err x))).
  Proof.
    intros F. destruct (search_parts lax rs (mkSres [] None) F) as (cs & F2 & H). exists cs. split; [exact F2|]. intros extra. cbn [q_found q_end app] in H. split; [|split].
    - intros r N. rewrite H. destruct r; try contradiction; reflexivity.
    - intros dn ats x N T. rewrite H. cbn [search_run search_msg response_obj]. unfold search_entry. rewrite (attrib_nodup ats [] N). cbn [bind app to_dn]. rewrite T. reflexivity.
    - intros dn ats t x N T P. rewrite H. cbn [search_run search_msg response_obj]. unfold search_entry. rewrite (attrib_nodup ats [] N). cbn [bind app to_dn]. rewrite T. cbn [bind]. rewrite P. reflexivity.
  Qed.

  (** *** The RDN (C73) *)
  Lemma rdn_refused a c r up : y_deleted c = false -> y_dn c = r :: up -> In a r ->
    c_edit lower (CDel (PStr (a_type a))) c = (c, Err ERdn) /\
    (forall s, c_edit lower (CSet (PStr (a_type a)) s) c = (c, Err ERdn)) /\
    forall k x, getitem lower k (y_entry c) = Ok x -> s_key x = PStr (a_type a) ->
      (exists c', c_edit lower (COn k SClear) c = (c', Err ERdn) /\ y_journal c' = y_journal c) /\
      (In (PStr (a_value a)) (s_vals x) -> exists c', c_edit lower (COn k (SRemove (PStr (a_value a)))) c = (c', Err ERdn) /\ y_journal c' = y_journal c).
  Proof.
    intros D N I. assert (C : check c = Ok tt) by (unfold check; now rewrite D).
    assert (A : can_remove_all (PStr (a_type a)) c = Err ERdn).
    { unfold can_remove_all. rewrite C. cbn [bind]. rewrite N. replace (existsb _ r) with true; [reflexivity|]. symmetry. apply existsb_exists. exists a. split; [exact I|apply pyval_eqb_refl]. }
    assert (R : can_remove (PStr (a_type a)) (PStr (a_value a)) c = Err ERdn).
    { unfold can_remove. rewrite C. cbn [bind]. rewrite N. replace (existsb _ r) with true; [reflexivity|]. symmetry. apply existsb_exists. exists a. split; [exact I|]. now rewrite !pyval_eqb_refl. }
    split; [|split].
    - cbn [c_edit]. unfold c_delitem. rewrite C. cbn [bind]. rewrite A. reflexivity.
    - intros s. cbn [c_edit]. unfold c_setitem. rewrite C. cbn [bind]. rewrite A. reflexivity.
    - intros k x G K. cbn [c_edit]. unfold on_set. rewrite C. cbn [bind]. rewrite G, K. cbn [set_method]. split.
      + rewrite A. eexists. split; [reflexivity|]. reflexivity.
      + intros V. assert (M : mem (PStr (a_value a)) (s_vals x) = true) by now apply mem_In. rewrite M, R. cbn [negb]. eexists. split; [reflexivity|]. reflexivity.
  Qed.
  Lemma keys_once_low e : keys_once lower e <-> NoDup (lowkeys lower (e_attrs e)).
  Proof. reflexivity. Qed.
  Lemma In_set_del v w l : In w (set_del v l) <-> In w l /\ w <> v.
  Proof.
    unfold set_del. rewrite filter_In, negb_true_iff. split; intros (I & H); split; auto.
    - intros ->. now rewrite pyval_eqb_refl in H.
    - destruct (pyval_eqb v w) eqn:E; [|reflexivity]. apply pyval_eqb_eq in E. congruence.
  Qed.
  Lemma set_method_rdn m a key vals c r up c' l o : y_dn c = r :: up -> In a r -> key = PStr (a_type a) -> In (PStr (a_value a)) vals ->
    (match m with SDiscard _ => False | _ => True end) -> set_method m key vals c = (c', l, o) ->
    In (PStr (a_value a)) l /\ exists js, y_journal c' = y_journal c ++ js /\ Forall (spares a) js.
  Proof.
    intros D I -> V M. destruct m as [v|s|v| |v]; cbn [set_method]; [| | | |contradiction].
    - unfold aset_add. destruct (get_strings v) as [fs|x]; cbn [bind]; intros [= <- <- _]; (split; [|eexists; split; [reflexivity|constructor; [intros _; left; reflexivity|constructor]]]); [|exact V].
      destruct (existsb _ fs); [exact V|]. unfold set_add. destruct (mem v vals); [exact V|apply in_or_app; now left].
    - intros [= <- <- _]. split; [|eexists; split; [reflexivity|constructor; [intros _; left; reflexivity|constructor]]].
      apply In_set_update. now left.
    - destruct (mem v vals) eqn:MV; cbn [negb]; [|intros [= <- <- _]; split; [exact V|]; exists []; split; [now rewrite app_nil_r|constructor]].
      unfold can_remove. destruct (check c) as [u|x]; cbn [bind]; [|intros [= <- <- _]; split; [exact V|]; exists []; split; [now rewrite app_nil_r|constructor]].
      rewrite D. destruct (existsb _ r) eqn:EX; [intros [= <- <- _]; split; [exact V|]; exists []; split; [now rewrite app_nil_r|constructor]|].
      assert (N : v <> PStr (a_value a)).
      { intros ->. assert (T : existsb (fun a0 => pyval_eqb (PStr (a_type a0)) (PStr (a_type a)) && pyval_eqb (PStr (a_value a0)) (PStr (a_value a))) r = true).
        { apply existsb_exists. exists a. split; [exact I|]. now rewrite !pyval_eqb_refl. }
        congruence. }
      assert (SP : Forall (spares a) [new_delta MDelete (PStr (a_type a)) [v]]).
      { constructor; [|constructor]. intros _. right. split; [reflexivity|]. cbn. split; [discriminate|]. intros [E|[]]. congruence. }
      unfold aset_remove. destruct (get_strings v) as [fs|x] eqn:G; cbn [bind]; [|intros [= <- <- _]; split; [exact V|]; eexists; split; [reflexivity|exact SP]].
      assert (F : find (fun k => mem k vals) fs = Some v).
      { destruct v as [s|b]; cbn [get_strings] in G; [destruct (utf8_encode s); [|discriminate]|destruct (utf8_decode b); [|discriminate]]; apply Ok_inj in G; subst fs; cbn [find]; now rewrite MV. }
      rewrite F. intros [= <- <- _]. split; [|eexists; split; [reflexivity|exact SP]]. apply In_set_del. split; [exact V|congruence].
    - unfold can_remove_all. destruct (check c) as [u|x]; cbn [bind]; [|intros [= <- <- _]; split; [exact V|]; exists []; split; [now rewrite app_nil_r|constructor]].
      rewrite D. destruct (existsb _ r) eqn:EX; [intros [= <- <- _]; split; [exact V|]; exists []; split; [now rewrite app_nil_r|constructor]|].
      exfalso. assert (T : existsb (fun a0 => pyval_eqb (PStr (a_type a0)) (PStr (a_type a))) r = true).
      { apply existsb_exists. exists a. split; [exact I|]. apply pyval_eqb_refl. }
      congruence.
  Qed.
  Lemma set_method_keeps m key vals c c' l o : set_method m key vals c = (c', l, o) -> y_entry c' = y_entry c.
  Proof.
    destruct m as [v|s|v| |v]; cbn [set_method].
    - destruct (aset_add v vals); intros [= <- _ _]; reflexivity.
    - intros [= <- _ _]; reflexivity.
    - destruct (negb (mem v vals)); [intros [= <- _ _]; reflexivity|]. destruct (can_remove key v c); [|intros [= <- _ _]; reflexivity]. destruct (aset_remove v vals); intros [= <- _ _]; reflexivity.
    - destruct (can_remove_all key c); intros [= <- _ _]; reflexivity.
    - intros [= <- _ _]; reflexivity.
  Qed.
  Lemma set_method_key m key vals c c' l o : set_method m key vals c = (c', l, o) -> exists js, y_journal c' = y_journal c ++ js /\ Forall (fun d => d_key d = key) js.
  Proof.
    assert (Z0 : exists js, y_journal c = y_journal c ++ js /\ Forall (fun d => d_key d = key) js) by (exists []; split; [now rewrite app_nil_r|constructor]).
    destruct m as [v|s|v| |v]; cbn [set_method].
    - destruct (aset_add v vals); intros [= <- _ _]; (eexists; split; [reflexivity|constructor; [reflexivity|constructor]]).
    - intros [= <- _ _]; (eexists; split; [reflexivity|constructor; [reflexivity|constructor]]).
    - destruct (negb (mem v vals)); [intros [= <- _ _]; exact Z0|]. destruct (can_remove key v c); [|intros [= <- _ _]; exact Z0]. destruct (aset_remove v vals); intros [= <- _ _]; (eexists; split; [reflexivity|constructor; [reflexivity|constructor]]).
    - destruct (can_remove_all key c); intros [= <- _ _]; [|exact Z0]. (eexists; split; [reflexivity|constructor; [reflexivity|constructor]]).
    - intros [= <- _ _]; exact Z0.
  Qed.
  Lemma getitem_in k e a : getitem lower k e = Ok a -> In a (e_attrs e).
  Proof.
    unfold getitem, find_key. destruct (get_strings k) as [fs|]; cbn [bind]; [|discriminate]. intros H.
    assert (X : forall l, fold_right (fun f acc => match dict_get lower f (e_attrs e) with Some a0 => Some a0 | None => acc end) None l = Some a -> In a (e_attrs e)).
    { induction l as [|f l IH]; cbn [fold_right]; [discriminate|]. destruct (dict_get lower f (e_attrs e)) eqn:G; [|exact IH]. intros [= ->]. exact (proj1 (dict_get_some lower _ _ _ G)). }
    destruct (fold_right _ None fs) eqn:F; [|discriminate]. apply Ok_inj in H. subst. now apply X in F.
  Qed.
  Lemma edit_rdn x a c r up : y_dn c = r :: up -> In a r -> keys_once lower (y_entry c) -> rdn_held a (y_entry c) -> spelled lower a x ->
    let c' := fst (c_edit lower x c) in
    y_dn c' = y_dn c /\ keys_once lower (y_entry c') /\ rdn_held a (y_entry c') /\ exists js, y_journal c' = y_journal c ++ js /\ Forall (spares a) js.
  Proof.
    intros D I K (s & IS & SK & SV) SP. cbn zeta.
    assert (Z0 : y_dn c = y_dn c /\ keys_once lower (y_entry c) /\ rdn_held a (y_entry c) /\ exists js, y_journal c = y_journal c ++ js /\ Forall (spares a) js).
    { split; [reflexivity|]. split; [exact K|]. split; [exists s; auto|]. exists []. split; [now rewrite app_nil_r|constructor]. }
    assert (CR : forall k, can_remove_all k c = Ok tt -> k <> PStr (a_type a)).
    { intros k H ->. unfold can_remove_all in H. destruct (check c); cbn [bind] in H; [|discriminate]. rewrite D in H. destruct (existsb _ r) eqn:EX; [discriminate|].
      assert (T : existsb (fun a0 => pyval_eqb (PStr (a_type a0)) (PStr (a_type a))) r = true) by (apply existsb_exists; exists a; split; [exact I|]; apply pyval_eqb_refl).
      congruence. }
    destruct x as [k m|k v|k]; cbn [c_edit spelled] in *.
    - unfold on_set. destruct (check c); cbn [bind]; [|exact Z0]. destruct (getitem lower k (y_entry c)) as [b|] eqn:G; [|exact Z0].
      pose proof (getitem_in _ _ _ G) as IB. destruct (set_method m (s_key b) (s_vals b) c) as [[c1 l] o] eqn:SM. cbn [fst].
      pose proof (set_method_keeps _ _ _ _ _ _ _ SM) as E1. rewrite E1.
      unfold with_entry, y_dn. cbn [y_entry y_journal]. unfold set_vals. cbn [e_dn e_attrs].
      split; [reflexivity|]. split; [unfold keys_once; cbn [e_attrs]; fold (lowkeys lower (dict_upd lower (s_key b) (fun _ => l) (e_attrs (y_entry c)))); rewrite lowkeys_upd; exact K|].
      destruct (Bool.reflect_dec _ _ (pyval_eqb_spec (lowv lower (s_key b)) (lowv lower (s_key s)))) as [EQ|NE].
      + assert (b = s) as -> by exact (lowkeys_inj lower _ b s K IB IS EQ).
        destruct (set_method_rdn m a (s_key s) (s_vals s) c r up c1 l o D I SK SV) as (VL & J); [destruct m; auto|exact SM|]. split; [|exact J].
        exists (mkSet (s_key s) l). split; [|auto]. apply (In_dict_upd lower); [exact K|]. left. exists s. auto.
      + split; [exists s; split; [apply (In_dict_upd lower); [exact K|]; right; split; [exact IS|congruence]|auto]|].
        destruct (set_method_key _ _ _ _ _ _ _ SM) as (js & J & F). exists js. split; [exact J|]. apply Forall_forall. intros d ID DK. exfalso. apply NE.
        rewrite <- (proj1 (Forall_forall _ _) F d ID), DK, SK. reflexivity.
    - unfold c_setitem. destruct (check c); cbn [bind]; [|exact Z0]. destruct (can_remove_all k c) as [[]|] eqn:CA; [|exact Z0]. specialize (CR k CA).
      cbn [fst journal with_entry y_dn y_entry y_journal setitem e_dn]. unfold y_dn. cbn [y_entry e_dn].
      split; [reflexivity|]. split; [unfold keys_once; cbn [e_attrs]; exact (NoDup_dict_set lower _ _ _ K)|]. split.
      + exists s. split; [|auto]. apply (In_dict_set lower); [exact K|]. right. split; [exact IS|]. rewrite SK. intros EQ. apply CR. apply SP. now symmetry.
      + eexists. split; [reflexivity|]. constructor; [|constructor]. intros E. cbn in E. congruence.
    - unfold c_delitem. destruct (check c); cbn [bind]; [|exact Z0]. destruct (can_remove_all k c) as [[]|] eqn:CA; cbn [bind]; [|exact Z0]. specialize (CR k CA).
      unfold delitem. destruct (dict_get lower k (e_attrs (y_entry c))); [|exact Z0].
      cbn [fst journal with_entry y_dn y_entry y_journal e_dn]. unfold y_dn. cbn [y_entry e_dn].
      split; [reflexivity|]. split; [unfold keys_once; cbn [e_attrs]; exact (NoDup_dict_del lower _ _ K)|]. split.
      + exists s. split; [|auto]. apply (In_dict_del lower). split; [exact IS|]. rewrite SK. intros EQ. apply CR. apply SP. now symmetry.
      + eexists. split; [reflexivity|]. constructor; [|constructor]. intros E. cbn in E. congruence.
  Qed.
  Lemma edits_rdn xs : forall a c r up, y_dn c = r :: up -> In a r -> keys_once lower (y_entry c) -> rdn_held a (y_entry c) -> Forall (spelled lower a) xs ->
    let c' := fold_left (fun c x => fst (c_edit lower x c)) xs c in
    rdn_held a (y_entry c') /\ exists js, y_journal c' = y_journal c ++ js /\ Forall (spares a) js.
  Proof.
    induction xs as [|x xs IH]; intros a c r up D I K H F.
    - split; [exact H|]. exists []. split; [cbn; now rewrite app_nil_r|constructor].
    - destruct (edit_rdn x a c r up D I K H (Forall_inv F)) as (D1 & K1 & H1 & js & J1 & S1). cbn [fold_left].
      destruct (IH a _ r up (eq_trans D1 D) I K1 H1 (Forall_inv_tail F)) as (H2 & js2 & J2 & S2). split; [exact H2|]. exists (js ++ js2). rewrite J2, J1, app_assoc. split; [reflexivity|]. now apply Forall_app.
  Qed.

  (** *** The requests (C74) *)
  Lemma move_sends nd net c l r : c_move nd net c = (l, Ok r) ->
    exists rd sup b nb sb, nd = rd :: sup /\ utf8_encode (dn_text (y_dn c)) = Ok b /\ utf8_encode (rdn_text rd) = Ok nb /\ utf8_encode (dn_text sup) = Ok sb /\
      l = [request_obj (ModifyDN b nb true (Some sb))].
  Proof.
    unfold c_move. destruct (check c); cbn [bind]; [|discriminate]. destruct nd as [|rd sup]; [discriminate|]. unfold text_pv.
    destruct (utf8_encode (dn_text (y_dn c))) as [b|] eqn:E1; cbn [bind]; [|discriminate]. destruct (utf8_encode (rdn_text rd)) as [nb|] eqn:E2; cbn [bind]; [|discriminate].
    destruct (utf8_encode (dn_text sup)) as [sb|] eqn:E3; cbn [bind]; [|discriminate]. unfold send. destruct net; [discriminate|]. intros [= <- <-]. exists rd, sup, b, nb, sb. auto 10.
  Qed.
  Lemma move_answer nd x c : r_dn x = [] ->
    exists o, move_done nd (response_obj (ModifyDNResponse x)) c = (if r_code x =? 0 then with_entry (mkEntry nd (e_attrs (y_entry c))) c else c, o) /\
      (o = Ok tt <-> r_code x = 0) /\ (r_code x <> 0 -> o = Err (ELdap (r_code x))).
  Proof.
    intros D. unfold move_done, good_result. cbn [response_obj result_obj]. destruct (cls_dec KModDNResp KModDNResp) as [_|N]; [|contradiction].
    rewrite D. destruct (r_code x) as [|p|p] eqn:E; cbn; eexists; (split; [reflexivity|]); split; try (split; [reflexivity|reflexivity]); try congruence; split; discriminate.
  Qed.
  Lemma split_perm {A} (f g : A -> bool) l : (forall x, g x = negb (f x)) -> Permutation.Permutation l (List.filter f l ++ List.filter g l).
  Proof.
    intros G. induction l as [|x l IH]; [constructor|]. cbn [List.filter]. rewrite G. destruct (f x); cbn [negb app]; [now constructor|now apply Permutation.Permutation_cons_app].
  Qed.
  Lemma add_sends rd ats net c l r : c_add_child rd ats net c = (l, Ok r) ->
    exists b ats' xs, utf8_encode (dn_text (rd :: y_dn c)) = Ok b /\ Permutation.Permutation ats ats' /\ Forall2 attr_sent ats' xs /\ l = [request_obj (AddReq b xs)].
  Proof.
    unfold c_add_child. destruct (check c); cbn [bind]; [|discriminate]. destruct (child_attrs ats) as [ats'|] eqn:C; cbn [bind]; [|discriminate].
    destruct (mapR child_attr ats') as [os|] eqn:M; cbn [bind]; [|discriminate]. unfold text_pv. destruct (utf8_encode (dn_text (rd :: y_dn c))) as [b|]; cbn [bind]; [|discriminate].
    unfold send. destruct net; [discriminate|]. intros [= <- <-].
    assert (P : Permutation.Permutation ats ats').
    { unfold child_attrs in C. destruct (_ || _); [|discriminate]. apply Ok_inj in C. subst ats'.
      etransitivity; [|apply Permutation.Permutation_app_head; apply SortFacts.sort_perm]. apply split_perm. reflexivity. }
    apply DeltaProofs.mapR_Forall2 in M.
    assert (exists xs, Forall2 attr_sent ats' xs /\ os = map attr_obj xs) as (xs & F & ->).
    { clear P C. induction M as [|kv o ats' os E M (xs & F & ->)]; [exists []; split; [constructor|reflexivity]|].
      unfold child_attr in E. destruct (to_bytes (fst kv)) as [kb|] eqn:K; cbn [bind] in E; [|discriminate]. destruct (mapR to_bytes (snd kv)) as [vs|] eqn:V; cbn [bind] in E; [|discriminate]. apply Ok_inj in E. subst o.
      exists ((kb, vs) :: xs). split; [|reflexivity]. constructor; [|exact F]. split; [exact K|]. now apply DeltaProofs.mapR_Forall2. }
    exists b, ats', xs. auto.
  Qed.
  Lemma password_sends new net c l r : c_set_password new net c = (l, Ok r) ->
    exists b w, utf8_encode (dn_text (y_dn c)) = Ok b /\ l = [request_obj (Extended pw_oid (Some w))] /\ asks_new_password (VBytes w) b new.
  Proof.
    unfold c_set_password. destruct (check c); cbn [bind]; [|discriminate]. destruct (utf8_encode (dn_text (y_dn c))) as [b|]; cbn [bind]; [|discriminate].
    set (o := OSeq KSeq _ _). destruct (toWire o) as [w|] eqn:W; cbn [bind]; [|discriminate]. unfold send. destruct net; [discriminate|]. intros [= <- <-].
    exists b, w. split; [reflexivity|]. split; [reflexivity|]. exists w, KSeq, (class_tag KSeq), [OStr KPwUser (class_tag KPwUser) b; OStr KPwNew (class_tag KPwNew) new].
    split; [reflexivity|]. split; [|split; [|split; [reflexivity|split; [reflexivity|right; reflexivity]]]].
    - assert (R : LdapProofs.reads ctx_pw w o).
      { cbn [o toWire] in W. refine (LdapProofs.reads_seq ctx_pw (class_tag KSeq) _ w KSeq _ _ _ _ _ W _); try LdapProofs.tagside; [now left|].
        constructor; [|constructor; [|constructor]]; intros w' W'; (eapply LdapProofs.reads_str; [LdapProofs.tagside|LdapProofs.tagside|LdapProofs.tagside| |exact W']); unfold LdapProofs.str_classes; cbn [In]; auto 20. }
      pose proof (LdapProofs.reads_decs ctx_pw [w] [o] (S (length w)) (Forall2_cons _ _ R (Forall2_nil _))) as H. cbn [concat] in H. rewrite app_nil_r in H. apply H. lia.
    - intros x [<-|[<-|[]]]; eexists; eexists; eexists; (split; [reflexivity|auto]).
  Qed.
End Runs.

(** *** With ldaptor's own server *)
Lemma request_kinds ms O P strict : omods strict ms O P -> Forall (fun m => exists k, kind_of_mod (m_op m) k) ms.
Proof.
  revert O P. induction ms as [|m ms IH]; intros O P H; [constructor|]. destruct H as (Q & (_ & H1) & H2). constructor; [|exact (IH _ _ H2)]. unfold kind_of_mod.
  destruct H1 as [(E & _)|[(E & _)|[(E & _)|(E & _)]]]; [exists MAdd|exists MDelete|exists MDelete|exists MReplace]; auto.
Qed.
Lemma own_server lower (lower_std : forall s, ascii s -> lower s = ascii_lower s) io sha oc_first pw_first odd_match text depth strict kt vt d its c O o s salt tag i cs r n :
  (forall k vs, In (k, vs) its -> name kt k /\ Forall (typed vt) vs) ->
  wreach lower oc_first strict kt vt (new_cent lower d its, octs (new_entry lower d its), None) (c, O, Some o) ->
  dn_ok (y_dn c) -> lookup lower depth (v_heap s) (v_root s) (y_dn c) = Ok r -> nth_error (v_heap s) r = Some n ->
  entry_ok lower false false (n_entry n) -> (forall k v, octs (n_entry n) k v <-> O k v) -> i <> 0 -> no_critical cs ->
  exists e' fin m, let s' := set_heap s (set_nth r (set_entry n e') (v_heap s)) in
    handle lower io sha oc_first pw_first odd_match text depth s salt (OMessage tag (VInt i) o cs) = Ok (s', [fin]) /\
    (sane i (ModifyResponse (mkResult 0 [] m)) -> sends fin i (ModifyResponse (mkResult 0 [] m))) /\
    e_dn e' = e_dn (n_entry n) /\ entry_ok lower false false e' /\ forall k v, octs e' k v <-> octs (y_entry c) k v.
Proof.
  intros T H DK LK NN EO SM N C. destruct (commit_world lower oc_first lower_std strict kt vt d its c O (Some o) T H) as (_ & _ & _ & W).
  destruct (W o eq_refl) as (b & ms & DB & -> & M & U & _). apply omods_lax in M.
  destruct (modify_spec lower io sha oc_first pw_first odd_match text depth s salt tag i cs b ms (dn_text (y_dn c)) (y_dn c) N C) as (ds & fin & o & s' & F & HD & (m & _ & SD) & X).
  - apply utf8_iff. exact DB.
  - now apply DnProofs.parse_dn_text.
  - exact (request_kinds _ _ _ _ M).
  - rewrite LK in X. destruct (X n NN) as (-> & ->).
    destruct (patch_omods lower lower_std ms ds (n_entry n) (octs (y_entry c)) EO U F) as (e' & P & O' & D' & E').
    { apply (omods_ext false ms O (octs (n_entry n)) (octs (y_entry c)) (octs (y_entry c))); [intros k v; symmetry; apply SM|intros k v; reflexivity|exact M]. }
    rewrite P in HD, SD. cbn [fst snd told] in HD, SD. exists e', fin, m. cbn zeta. split; [exact HD|]. auto.
Qed.
(** A move that the client asks for, at the server *)
Lemma own_move lower io sha oc_first pw_first odd_match text depth nd net c l x s salt tag i cs r :
  c_move nd net c = (l, Ok x) -> dn_ok (y_dn c) -> (forall rd sup, nd = rd :: sup -> dn_ok sup /\ parse_rdn io (rdn_text rd) = Ok rd) ->
  lookup lower depth (v_heap s) (v_root s) (y_dn c) = Ok r -> i <> 0 -> no_critical cs ->
  exists o fin m, l = [o] /\
    handle lower io sha oc_first pw_first odd_match text depth s salt (OMessage tag (VInt i) o cs) = Ok (set_heap s (fst (move lower depth (v_heap s) r nd)), [fin]) /\
    let res := mkResult (told (snd (move lower depth (v_heap s) r nd))) [] m in
    (sane i (ModifyDNResponse res) -> sends fin i (ModifyDNResponse res)).
Proof.
  intros H DK ND LK N C. destruct (move_sends nd net c l x H) as (rd & sup & b & nb & sb & -> & B1 & B2 & B3 & ->). destruct (ND rd sup eq_refl) as (SK & RK).
  destruct (modify_dn_spec lower io sha oc_first pw_first odd_match text depth s salt tag i cs b nb true (Some sb) (dn_text (y_dn c)) (y_dn c) (rdn_text rd) rd sup N C) as (fin & o & s' & HD & (m & _ & SD) & X).
  - apply utf8_iff. exact B1.
  - now apply DnProofs.parse_dn_text.
  - apply utf8_iff. exact B2.
  - exact RK.
  - exists (dn_text sup). split; [apply utf8_iff; exact B3|]. now apply DnProofs.parse_dn_text.
  - rewrite LK in X. destruct X as (-> & ->). exists (request_obj (ModifyDN b nb true (Some sb))), fin, m. auto.
Qed.
