(** Proofs about setting passwords. *)
From Coq Require Import Permutation.
From Verif Require Import Base BaseFacts Utf8Model Utf8Proofs DnModel DnSpec DnProofs EntryModel EntrySpec EntryProofs LdapModel LdapSpec DeltaModel LdifModel IdentityModel ServerModel ServerSpec
  ConfigModel ConfigSpec ConfigProofs SyntaxModel SyntaxSpec SyntaxProofs SyntaxRuns SyntaxFetch SetPwModel SetPwSpec.

Lemma samba_fails lower old nt lm net c c' l x : c_samba lower old nt lm net c = (c', l, Err x) -> l = [].
Proof.
  unfold c_samba. destruct (check c); [|intros [= _ <- _]; reflexivity]. destruct (c_setitem _ _ _ _) as (c1 & [u1|x1]); [|intros [= _ <- _]; reflexivity].
  destruct (c_setitem _ _ _ _) as (c2 & [u2|x2]); [|intros [= _ <- _]; reflexivity]. unfold c_commit. destruct (check c2); [|intros [= _ <- _]; reflexivity].
  destruct (y_journal c2); [intros [= _ <- _]; reflexivity|]. destruct (as_ldap _ _); [|intros [= _ <- _]; reflexivity]. destruct net; [intros [= _ <- _]; reflexivity|discriminate].
Qed.
Lemma fetch_fails attrs net c l x : c_fetch attrs net c = (l, Err x) -> l = [].
Proof.
  unfold c_fetch. destruct (check c) eqn:C; [|intros [= <- _]; reflexivity]. destruct (y_journal c); [|intros [= <- _]; reflexivity]. destruct (mapR to_bytes attrs); [|intros [= <- _]; reflexivity].
  unfold c_search. rewrite C. cbn [bind]. destruct (text_pv _); cbn [bind]; [|intros [= <- _]; reflexivity]. unfold send. destruct net; [intros [= <- _]; reflexivity|discriminate].
Qed.
Lemma password_fails new net c l x : c_set_password new net c = (l, Err x) -> l = [].
Proof.
  unfold c_set_password. destruct (do _ <- check c; _); [|intros [= <- _]; reflexivity]. unfold send. destruct net; [intros [= <- _]; reflexivity|discriminate].
Qed.
Lemma ext_ok msg u : set_password_done msg = Ok u -> ext_granted msg.
Proof.
  unfold set_password_done. destruct msg; try discriminate. intros H. apply bind_ok in H as (v & C & H). unfold code_check in C. destruct resultCode as [|z|]; try discriminate. destruct z; try discriminate.
  unfold assert_matched in H. destruct matchedDN as [| |d]; try discriminate. destruct d; [|discriminate]. repeat eexists.
Qed.
Lemma mod_ok lower oc_first msg c c' u : commit_success lower oc_first msg c = (c', Ok u) -> mod_granted msg.
Proof.
  unfold commit_success. destruct (good_result KModResp msg) as [v|] eqn:G; cbn [bind]; [|discriminate]. intros _. unfold good_result in G. destruct msg; try discriminate.
  destruct (cls_dec KModResp k); [|discriminate]. subst k. apply bind_ok in G as (w & C & H). unfold code_check in C. destruct resultCode as [|z|]; try discriminate. destruct z; try discriminate.
  unfold assert_matched in H. destruct matchedDN as [| |d]; try discriminate. destruct d; [|discriminate]. repeat eexists.
Qed.
Lemma commit_entry lower oc_first msg c c' r : commit_success lower oc_first msg c = (c', r) -> y_entry c' = y_entry c.
Proof. unfold commit_success. destruct (do _ <- good_result _ _; _); intros [= <- _]; reflexivity. Qed.
Lemma fetch_dn lower oc_first l attrs c c' r : fetch_done lower oc_first l attrs c = (c', r) -> y_dn c' = y_dn c.
Proof.
  unfold fetch_done. destruct l as [|o [|o2 l]]; try (intros [= <- _]; reflexivity). destruct (y_journal c); [|intros [= <- _]; reflexivity].
  match goal with |- match ?x with _ => _ end = _ -> _ => destruct x; [|intros [= <- _]; reflexivity] end.
  unfold c_undo. destruct (check _); [|intros [= <- _]; reflexivity]. destruct (items _ _ _); intros [= <- _]; reflexivity.
Qed.

Lemma trapped_iff x : trapped x = true <-> ldap_failure x.
Proof.
  unfold ldap_failure, ENoDn. split.
  - destruct x as [| | | | | | | | | | |n|code|]; try discriminate; [|left; eauto]. intros H. cbn in H. apply orb_prop in H as [H|H]; apply Z.eqb_eq in H; subst; auto.
  - intros [(c & ->)|[->| ->]]; reflexivity.
Qed.
Section SetPw.
  Variables lower upper : str -> str.
  Variable io : Z -> Z -> res Z.
  Variable oc_first : bool.
  Variables nt lm : bytes -> res bytes.
  Variable complete : bool.
  Variable new : bytes.
  Hypothesis lower_std : forall s, ascii s -> lower s = ascii_lower s.
  Notation step := (pw_step lower upper io oc_first nt lm complete new).
  Notation run := (pw_run lower upper io oc_first nt lm complete new).
  Notation start := (pw_start lower upper nt lm complete new).
  Notation maybe := (samba_maybe lower upper nt lm complete new).
  Notation resume := (pw_resume lower upper nt lm complete new).
  Notation pall := (pw_all lower upper nt lm complete new).
  Notation cls := (in_class lower upper).

  (** *** Object classes *)
  Lemma style_spec c o : samba_style lower upper c = Ok o ->
    match o with Some old => cls (samba_class old) (y_entry c) | None => oc_once lower (y_entry c) -> forall old, ~ cls (samba_class old) (y_entry c) end.
  Proof.
    unfold samba_style. intros H. apply bind_ok in H as (u & C & H). apply bind_ok in H as (x & F & H). apply bind_ok in H as (l & M & H). apply Ok_inj in H.
    pose proof (find_names lower (PStr (S_ "objectClass")) (y_entry c) x F) as N.
    assert (MM : forall b, In b l <-> exists v, In v (match x with Some a => s_vals a | None => [] end) /\ to_bytes (pv_upper upper v) = Ok b).
    { clear - M. revert l M. generalize (match x with Some a => s_vals a | None => [] end). induction l as [|v vs IH]; intros l M.
      - apply Ok_inj in M. subst l. split; [intros []|intros (v & [] & _)].
      - cbn [mapR] in M. apply bind_ok in M as (b0 & B0 & M). apply bind_ok in M as (l' & M & E). apply Ok_inj in E. subst l. intros b. cbn [In]. rewrite (IH l' M). split.
        + intros [<-|(w & I & W)]; [exists v; auto|exists w; auto].
        + intros (w & [<-|I] & W); [left; congruence|right; eauto]. }
    assert (EX : forall b, existsb (bytes_eqb b) l = true <-> In b l).
    { intros b. rewrite existsb_exists. split; [intros (y & I & E); destruct (bytes_eqb_spec b y); [now subst|discriminate]|intros I; exists b; split; [exact I|destruct (bytes_eqb_spec b b); [reflexivity|contradiction]]]. }
    assert (CL : forall b, In b l -> cls b (y_entry c)).
    { intros b. rewrite MM. intros (v & I & V). destruct x as [a|]; [|destruct I]. destruct N as (IA & k & S & L). exists a, k, v. split; [exact IA|]. split; [exact S|]. split; [exact L|]. split; [exact I|].
      destruct v as [s|bb]; cbn [pv_upper to_bytes] in V; [exact V|now apply Ok_inj in V]. }
    assert (CR : oc_once lower (y_entry c) -> forall b, cls b (y_entry c) -> In b l).
    { intros O b (a & k & v & IA & S & L & I & V). rewrite MM. destruct x as [a'|].
      + destruct N as (IA' & k' & S' & L'). rewrite (O a' a k' k IA' IA S' S L' L).
        exists v. split; [exact I|]. destruct v as [s|bb]; cbn [pv_upper to_bytes]; [exact V|now f_equal].
      + destruct (N a k IA S L). }
    unfold samba_class. destruct (existsb (bytes_eqb (B "SAMBAACCOUNT")) l) eqn:E1; subst o; [now apply CL, EX|].
    destruct (existsb (bytes_eqb (B "SAMBASAMACCOUNT")) l) eqn:E2; [now apply CL, EX|].
    intros O [|] X; apply (CR O), EX in X; congruence.
  Qed.

  (** The attributes that the Samba plugin sets are no objectClass *)
  Lemma set_class k vs e old : ascii k -> ascii_lower k <> ascii_lower (S_ "objectClass") -> cls (samba_class old) e -> cls (samba_class old) (setitem lower (PStr k) vs e).
  Proof.
    intros A N (a & n & v & I & S & L & V). exists a, n, v. split; [|auto].
    assert (NE : lowv lower (s_key a) <> lowv lower (PStr k)).
    { rewrite L. destruct S as (b & B1 & B2). vm_compute in B1. apply Ok_inj in B1. subst b. destruct n as [s|b]; [|discriminate]. cbn [lowv]. intros E. injection E as E. rewrite (lower_std k A) in E.
      cbn [to_bytes] in B2. assert (s = S_ "objectClass").
      { apply utf8_iff in B2. vm_compute in B2. apply Ok_inj in B2. subst s. reflexivity. }
      subst s. rewrite lower_std in E; [congruence|]. vm_compute. repeat (constructor; [split; [discriminate|reflexivity]|]). constructor. }
    unfold setitem. cbn [e_attrs]. clear - I NE. induction (e_attrs e) as [|x l IH]; [destruct I|]. cbn [dict_set]. destruct (same_key lower (PStr k) x) eqn:E.
    - destruct I as [<-|I]; [|now right]. exfalso. apply NE. unfold same_key in E. apply pyval_eqb_eq in E. congruence.
    - destruct I as [<-|I]; [now left|right; auto].
  Qed.
  Lemma samba_ent old n l net c c' sent r : c_samba lower old n l net c = (c', sent, Ok r) ->
    y_dn c' = y_dn c /\ forall o, cls (samba_class o) (y_entry c) -> cls (samba_class o) (y_entry c').
  Proof.
    unfold c_samba. destruct (check c); [|discriminate].
    destruct (c_setitem lower (PStr (S_ (if old then "ntPassword" else "sambaNTPassword"))) (Listed [n]) c) as (c1 & [u1|x1]) eqn:S1; [|discriminate].
    destruct (c_setitem lower (PStr (S_ (if old then "lmPassword" else "sambaLMPassword"))) (Listed [l]) c1) as (c2 & [u2|x2]) eqn:S2; [|discriminate].
    destruct (c_commit net c2) as (l0 & r0). intros [= <- _ _].
    unfold c_setitem in S1. destruct (do _ <- check c; can_remove_all _ c) as [v1|y1]; [|discriminate]. injection S1 as <- _.
    unfold c_setitem in S2. destruct (do _ <- check _; can_remove_all _ _) as [v2|y2]; [|discriminate]. injection S2 as <- _.
    split; [reflexivity|]. intros o H. cbn [read1 journal y_entry with_entry].
    apply set_class; [destruct old; vm_compute; repeat (constructor; [split; [discriminate|reflexivity]|]); constructor|destruct old; vm_compute; discriminate|].
    apply set_class; [destruct old; vm_compute; repeat (constructor; [split; [discriminate|reflexivity]|]); constructor|destruct old; vm_compute; discriminate|]. exact H.
  Qed.

  (** *** After the password modify operation *)
  Section Stage.
    Variable c0 : cent.
    Variables b : bytes.
    Variable ext : obj.
    Hypothesis B0 : utf8_encode (dn_text (y_dn c0)) = Ok b.

    (** The modification that sets the hashes was sent, for this kind of account. *)
    Definition hashed (s : pws) (o : obj) : Prop :=
      exists old n l, nt new = Ok n /\ lm new = Ok l /\ sets_hashes old b n l o /\ cls (samba_class old) (y_entry (p_ent s)).
    Definition sent_so_far (s : pws) (n : nat) (tail : list obj) : Prop := p_sent s = ext :: repeat (ask_classes b) n ++ tail /\ (tail = [] \/ exists o, tail = [o] /\ hashed s o).
    Definition ended (evs : list (option exn * pwevent)) (s : pws) : Prop :=
      p_wait s = None /\ exists n tail, sent_so_far s n tail /\
        ((p_end s = Some PwDone /\ ((tail = [] /\ (oc_once lower (y_entry (p_ent s)) -> forall old, ~ cls (samba_class old) (y_entry (p_ent s)))) \/
                                    (tail <> [] /\ exists net m, In (net, PwMsg m) evs /\ mod_granted m))) \/
         (exists x, p_end s = Some (PwAggregate [(PSamba, PwFail x)]) /\ trapped x = true) \/
         exists x, p_end s = Some (PwRaised x) /\ trapped x = false).
    Definition waits (s : pws) : Prop :=
      p_end s = None /\ p_results s = [None] /\ p_todo s = [] /\ y_dn (p_ent s) = y_dn c0 /\
      exists n tail, sent_so_far s n tail /\ ((tail = [] /\ exists q, p_wait s = Some (WFetch q)) \/ (tail <> [] /\ p_wait s = Some WCommit)).
    Definition pre (s : pws) (n : nat) (tail : list obj) : Prop :=
      p_end s = None /\ p_results s = [None] /\ p_todo s = [] /\ y_dn (p_ent s) = y_dn c0 /\ sent_so_far s n tail.

    Lemma ended_more evs evs' s : ended evs s -> ended (evs ++ evs') s.
    Proof.
      intros (W & n & tail & S & E). split; [exact W|]. exists n, tail. split; [exact S|]. destruct E as [(E & D)|E]; [left; split; [exact E|]|right; exact E].
      destruct D as [D|(T & net & m & I & G)]; [left; exact D|right; split; [exact T|]]. exists net, m. split; [apply in_or_app; now left|exact G].
    Qed.
    Lemma resume_end net r s n tail : pre s n tail -> resume net r s =
      w_end (match r with Ok _ => PwDone | Err x => if trapped x then PwAggregate [(PSamba, PwFail x)] else PwRaised x end)
        (match r with Err x => if trapped x then w_push (Some (PwFail x)) (w_wait None s) else w_wait None s | Ok _ => w_push None (w_wait None s) end).
    Proof.
      intros (E & R & T & D & S). clear - E R T. destruct s as [en rs td w st pe]. cbn [p_end p_results p_todo] in *. subst. destruct r as [u|x]; [reflexivity|].
      unfold pw_resume, pw_record. destruct (trapped x); reflexivity.
    Qed.
    Lemma resumed evs net r s n tail : pre s n tail ->
      (r = Ok tt -> (tail = [] /\ (oc_once lower (y_entry (p_ent s)) -> forall old, ~ cls (samba_class old) (y_entry (p_ent s)))) \/ (tail <> [] /\ exists net m, In (net, PwMsg m) evs /\ mod_granted m)) ->
      ended evs (resume net r s).
    Proof.
      intros P G. rewrite (resume_end net r s n tail P). destruct P as (E & R & T & D & S).
      destruct r as [[]|x]; [|destruct (trapped x) eqn:TR]; (split; [reflexivity|]; exists n, tail; split; [exact S|]).
      - left. split; [reflexivity|]. exact (G eq_refl).
      - right. left. exists x. split; [reflexivity|exact TR].
      - right. right. exists x. split; [reflexivity|exact TR].
    Qed.
    (** The Samba plugin: started, or started again with the object classes *)
    Lemma maybe_spec evs net s n : pre s n [] -> p_wait s = None ->
      match maybe net s with (s', None) => waits s' | (s', Some r) => ended evs (resume net r s') end.
    Proof.
      intros P W. pose proof P as (E & R & T & D & S & _). unfold samba_maybe.
      match goal with |- context [match ?t with Ok _ => _ | Err _ => _ end] => destruct t as [[|]|x] eqn:K end.
      - unfold samba_known. destruct (samba_style lower upper (p_ent s)) as [[old|]|x] eqn:ST.
        + pose proof (style_spec _ _ ST) as CL. unfold samba_set. destruct (do _ <- check (p_ent s); do n <- nt new; do l <- lm new; Ok (n, l)) as [(h & l)|x] eqn:H.
          2:{ apply (resumed evs net (Err x) s n []); [exact P|discriminate]. }
          assert (HL : nt new = Ok h /\ lm new = Ok l).
          { apply bind_ok in H as (u & _ & H). apply bind_ok in H as (h' & H1 & H). apply bind_ok in H as (l' & H2 & H). apply Ok_inj in H. injection H as -> ->. auto. }
          destruct HL as (H1 & H2). destruct (c_samba lower old (PBytes h) (PBytes l) net (p_ent s)) as ((c & sent) & [v|x]) eqn:CS.
          * destruct (samba_sends lower old _ _ _ _ _ _ _ CS) as (b' & ms & nb & lb & EB & NB & LB & _ & -> & _). rewrite D in EB. rewrite B0 in EB. apply Ok_inj in EB. subst b'.
            cbn [to_bytes] in NB, LB. apply Ok_inj in NB, LB. subst nb lb. destruct (samba_ent _ _ _ _ _ _ _ _ CS) as (DN & CK).
            split; [exact E|]. split; [exact R|]. split; [exact T|]. split; [cbn [p_ent w_wait w_send w_ent]; congruence|]. match goal with |- context [w_send [?o] _] => exists n, [o] end. split; [|right; split; [discriminate|reflexivity]].
            split; [cbn [p_sent w_wait w_send w_ent]; rewrite S; rewrite app_nil_r; reflexivity|]. right. eexists. split; [reflexivity|]. exists old, h, l. split; [exact H1|]. split; [exact H2|].
            split; [exists ms; reflexivity|]. cbn [p_ent w_wait w_send w_ent]. apply CK. exact CL.
          * rewrite (samba_fails _ _ _ _ _ _ _ _ _ CS). apply (resumed evs net (Err x) _ n []); [|discriminate]. split; [exact E|]. split; [exact R|]. split; [exact T|].
            assert (DN : y_dn c = y_dn (p_ent s)).
            { clear - CS. unfold c_samba in CS. destruct (check (p_ent s)); [|injection CS as <- _ _; reflexivity].
              match type of CS with context [c_setitem lower ?k ?v ?c] => destruct (c_setitem lower k v c) as (c1 & [u1|x1]) eqn:S1 end.
              2:{ injection CS as <- _ _. unfold c_setitem in S1. destruct (do _ <- check _; _); injection S1 as <- _; reflexivity. }
              match type of CS with context [c_setitem lower ?k ?v c1] => destruct (c_setitem lower k v c1) as (c2 & [u2|x2]) eqn:S2 end.
              - destruct (c_commit net c2). injection CS as <- _ _. unfold c_setitem in S1, S2. destruct (do _ <- check (p_ent s); _); injection S1 as <-; [|discriminate]. destruct (do _ <- check _; _); injection S2 as <-; [reflexivity|discriminate].
              - injection CS as <- _ _. unfold c_setitem in S1, S2. destruct (do _ <- check (p_ent s); _); injection S1 as <-; [|discriminate]. destruct (do _ <- check _; _); injection S2 as <-; reflexivity. }
            split; [cbn [p_ent w_send w_ent]; congruence|]. split; [cbn [p_sent w_send w_ent]; rewrite S, !app_nil_r; reflexivity|now left].
        + apply (resumed evs net (Ok tt) s n []); [exact P|]. intros _. left. split; [reflexivity|]. exact (style_spec _ _ ST).
        + apply (resumed evs net (Err x) s n []); [exact P|discriminate].
      - destruct (c_fetch [PStr (S_ "objectClass")] net (p_ent s)) as (sent & [v|x]) eqn:F.
        + destruct (fetch_sends _ _ _ _ _ F) as (_ & b' & ns & EB & NS & ->). rewrite D in EB. rewrite B0 in EB. apply Ok_inj in EB. subst b'.
          inversion NS as [|x y l1 l2 X NS' E1 E2]; subst. inversion NS'; subst. change (to_bytes (PStr (S_ "objectClass"))) with (Ok (B "objectClass")) in X. apply Ok_inj in X. subst y.
          split; [exact E|]. split; [exact R|]. split; [exact T|]. split; [exact D|]. exists (n + 1)%nat, []. split; [|left; split; [reflexivity|eexists; reflexivity]].
          split; [|now left]. cbn [p_sent w_wait w_send]. rewrite S, !app_nil_r. rewrite repeat_app. reflexivity.
        + rewrite (fetch_fails _ _ _ _ _ F). apply (resumed evs net (Err x) _ n []); [|discriminate]. split; [exact E|]. split; [exact R|]. split; [exact T|]. split; [exact D|].
          split; [cbn [p_sent w_send]; rewrite S, !app_nil_r; reflexivity|now left].
      - apply (resumed evs net (Err x) s n []); [exact P|discriminate].
    Qed.
    Lemma stage_step evs s e : waits s \/ ended evs s -> waits (step s e) \/ ended (evs ++ [e]) (step s e).
    Proof.
      intros [(E & R & T & D & n & tail & S & W)|X].
      2:{ right. replace (step s e) with s; [now apply ended_more|]. unfold pw_step. now rewrite (proj1 X). }
      assert (P : pre s n tail) by (repeat split; auto; apply S). destruct e as (net & ev). unfold pw_step. cbn [fst snd].
      destruct W as [(-> & q & W)|(TN & W)]; rewrite W.
      - destruct ev as [msg|x]; [|right; apply (resumed _ net (Err x) s n []); [exact P|discriminate]].
        destruct (q_end (search_run lower io false [msg] q)) as [[u|x]|] eqn:Q.
        + destruct (fetch_done lower oc_first _ _ (p_ent s)) as (c & [v|x]) eqn:FD.
          * pose proof (fetch_dn _ _ _ _ _ _ _ FD) as DN. assert (P2 : pre (w_wait None (w_ent c s)) n []).
            { split; [exact E|]. split; [exact R|]. split; [exact T|]. split; [cbn [p_ent w_wait w_ent]; congruence|]. split; [exact (proj1 S)|now left]. }
            pose proof (maybe_spec (evs ++ [(net, PwMsg msg)]) net _ n P2 eq_refl) as M. destruct (maybe net (w_wait None (w_ent c s))) as (s' & [r|]); [right|left]; exact M.
          * right. pose proof (fetch_dn _ _ _ _ _ _ _ FD) as DN. apply (resumed _ net (Err x) _ n []); [|discriminate].
            split; [exact E|]. split; [exact R|]. split; [exact T|]. split; [cbn [p_ent w_ent]; congruence|]. split; [exact (proj1 S)|now left].
        + right. apply (resumed _ net (Err x) s n []); [exact P|discriminate].
        + left. split; [exact E|]. split; [exact R|]. split; [exact T|]. split; [exact D|]. exists n, []. split; [exact S|]. left. split; [reflexivity|]. eexists. reflexivity.
      - destruct ev as [msg|x]; [|right; apply (resumed _ net (Err x) s n tail); [exact P|discriminate]].
        destruct (commit_success lower oc_first msg (p_ent s)) as (c & r) eqn:CS. right. pose proof (commit_entry _ _ _ _ _ _ CS) as CE.
        apply (resumed _ net r _ n tail).
        + split; [exact E|]. split; [exact R|]. split; [exact T|]. split; [cbn [p_ent w_ent]; unfold y_dn; rewrite CE; exact D|]. split; [exact (proj1 S)|]. destruct (proj2 S) as [H|(o & -> & H)]; [now left|right].
          exists o. split; [reflexivity|]. unfold hashed in *. cbn [p_ent w_ent]. rewrite CE. exact H.
        + intros ->. right. split; [exact TN|]. exists net, msg. split; [apply in_or_app; right; now left|exact (mod_ok _ _ _ _ _ _ CS)].
    Qed.
    Lemma stage_run evs' : forall evs s, waits s \/ ended evs s -> waits (run evs' s) \/ ended (evs ++ evs') (run evs' s).
    Proof.
      induction evs' as [|e evs' IH]; intros evs s H; [rewrite app_nil_r; exact H|]. cbn [pw_run fold_left]. replace (evs ++ e :: evs') with ((evs ++ [e]) ++ evs') by (rewrite <- app_assoc; reflexivity).
      apply IH. now apply stage_step.
    Qed.
  End Stage.

  (** *** The whole of it *)
  Lemma maybe_todo l net s : maybe net (w_todo l s) = (let (s', r) := maybe net s in (w_todo l s', r)).
  Proof.
    unfold samba_maybe. cbn [p_ent w_todo]. destruct (if complete then _ else _) as [[|]|x]; [| |reflexivity].
    - unfold samba_known. cbn [p_ent w_todo]. destruct (samba_style lower upper (p_ent s)) as [[old|]|x]; [|reflexivity|reflexivity].
      unfold samba_set. cbn [p_ent w_todo]. destruct (do _ <- check (p_ent s); do n <- nt new; do l <- lm new; Ok (n, l)) as [(h & m)|x]; [|reflexivity].
      destruct (c_samba lower old (PBytes h) (PBytes m) net (p_ent s)) as ((c & [|o sent]) & [v|x]); reflexivity.
    - destruct (c_fetch _ net (p_ent s)) as (sent & [v|x]); reflexivity.
  Qed.
  Lemma maybe_wait net s s' r : p_wait s = None -> maybe net s = (s', Some r) -> p_wait s' = None.
  Proof.
    intros W. unfold samba_maybe. destruct (if complete then _ else _) as [[|]|x]; [| |intros [= <- _]; exact W].
    - unfold samba_known. destruct (samba_style lower upper (p_ent s)) as [[old|]|x]; [|intros [= <- _]; exact W|intros [= <- _]; exact W].
      unfold samba_set. destruct (do _ <- check (p_ent s); do n <- nt new; do l <- lm new; Ok (n, l)) as [(h & m)|x]; [|intros [= <- _]; exact W].
      destruct (c_samba lower old (PBytes h) (PBytes m) net (p_ent s)) as ((c & [|o sent]) & [v|x]); try discriminate; intros [= <- _]; exact W.
    - destruct (c_fetch _ net (p_ent s)) as (sent & [v|x]); [discriminate|]. intros [= <- _]. exact W.
  Qed.
  Definition begun (c : cent) (o : obj) : pws := mkPws c [] [PSamba] (Some WExt) [o] None.
  Definition both_fail (x : exn) : pwend := if trapped x then PwAggregate [(PExt, PwFail x); (PSamba, PwAborted)] else PwRaised x.
  Lemma start_spec net c : (exists x, start net c = mkPws c (if trapped x then [Some (PwFail x); Some PwAborted] else []) [] None [] (Some (both_fail x))) \/
    exists b o, utf8_encode (dn_text (y_dn c)) = Ok b /\ ask_password b new o /\ start net c = begun c o.
  Proof.
    unfold pw_start. change plugins with [PExt; PSamba]. cbn [pw_all]. change (failing _) with false at 1. cbn [pw_begin p_ent]. destruct (c_set_password new net c) as (sent & [u|x]) eqn:S.
    - right. destruct (password_sends _ _ _ _ _ S) as (b & w & EB & -> & A). exists b. eexists. split; [exact EB|]. split; [exists w; split; [reflexivity|exact A]|reflexivity].
    - left. exists x. rewrite (password_fails _ _ _ _ _ S). unfold both_fail. cbn [pw_record]. destruct (trapped x); reflexivity.
  Qed.
  Lemma first_fails net x c o : resume net (Err x) (begun c o) = mkPws c (if trapped x then [Some (PwFail x); Some PwAborted] else []) (if trapped x then [] else [PSamba]) None [o] (Some (both_fail x)).
  Proof. unfold pw_resume, both_fail. cbn [pw_record]. destruct (trapped x); reflexivity. Qed.
  Lemma first_ok net c o b : utf8_encode (dn_text (y_dn c)) = Ok b -> forall evs u, waits c b o (resume net (Ok u) (begun c o)) \/ ended b o evs (resume net (Ok u) (begun c o)).
  Proof.
    intros EB evs u. unfold pw_resume. cbn [pw_record w_push w_wait begun p_end p_todo pw_all].
    match goal with |- context [pw_begin _ _ _ _ _ _ _ _ ?x] => set (s0 := x) end. change (failing s0) with false. cbv iota. cbn [pw_begin].
    assert (P : pre c b o (w_todo [] s0) 0 []) by (repeat split; now left). pose proof (maybe_spec c b o EB evs net _ 0%nat P eq_refl) as M. rewrite maybe_todo in M.
    destruct (maybe net s0) as (s' & [r|]) eqn:MB; [right|left; exact M].
    pose proof (maybe_wait net s0 s' r eq_refl MB) as W. unfold pw_resume in M. cbn [p_end p_todo] in M. destruct s' as [en rs td w st pe]. cbn [p_wait] in W. subst w.
    destruct r as [v|x]; cbn [pw_record] in *; [|destruct (trapped x)]; unfold w_push, w_wait, w_todo, w_end in *; cbn [p_ent p_results p_todo p_wait p_sent p_end pw_all] in *; try (destruct pe; exact M).
  Qed.

  (** What there is after the events [evs], the requests that were sent among it *)
  Lemma story net0 c evs : let s := run evs (start net0 c) in
    (exists x, p_sent s = [] /\ p_wait s = None /\ p_end s = Some (both_fail x)) \/
    exists b o, utf8_encode (dn_text (y_dn c)) = Ok b /\ ask_password b new o /\
      ((evs = [] /\ s = begun c o) \/
       (exists x, p_sent s = [o] /\ p_wait s = None /\ p_end s = Some (both_fail x)) \/
       (exists net m evs', evs = (net, PwMsg m) :: evs' /\ ext_granted m /\ (waits c b o s \/ ended b o evs' s))).
  Proof.
    assert (STAY : forall l s, p_wait s = None -> run l s = s). { induction l as [|e l IH]; intros s W; [reflexivity|]. cbn [pw_run fold_left]. unfold pw_step at 2. rewrite W. now apply IH. }
    intros s. destruct (start_spec net0 c) as [(x & E)|(b & o & EB & A & E)]; unfold s; rewrite E.
    - left. exists x. rewrite STAY by reflexivity. auto.
    - right. exists b, o. split; [exact EB|]. split; [exact A|]. destruct evs as [|(net & ev) evs]; [left; auto|right]. cbn [pw_run fold_left].
      assert (F : forall x, step (begun c o) (net, ev) = resume net (Err x) (begun c o) -> exists x, p_sent (run evs (step (begun c o) (net, ev))) = [o] /\ p_wait (run evs (step (begun c o) (net, ev))) = None /\
                   p_end (run evs (step (begun c o) (net, ev))) = Some (both_fail x)).
      { intros x X. exists x. rewrite X, first_fails. rewrite STAY by reflexivity. auto. }
      destruct ev as [m|x]; [|left; apply (F x); reflexivity]. destruct (set_password_done m) as [u|x] eqn:SD.
      + right. exists net, m, evs. split; [reflexivity|]. split; [exact (ext_ok _ _ SD)|]. change (step (begun c o) (net, PwMsg m)) with (resume net (set_password_done m) (begun c o)). rewrite SD.
        apply (stage_run c b o EB evs []). now apply first_ok.
      + left. apply (F x). unfold pw_step. cbn [p_wait begun snd fst]. now rewrite SD.
  Qed.

  (** *** An entry that is complete *)
  Definition NS (s : pws) : Prop := Forall (fun o => ~ is_search o) (p_sent s) /\ forall q, p_wait s <> Some (WFetch q).
  Lemma samba_nosearch old n l net c c' sent r : c_samba lower old n l net c = (c', sent, r) -> Forall (fun o => ~ is_search o) sent.
  Proof.
    unfold c_samba. destruct (check c); [|intros [= _ <- _]; constructor].
    destruct (c_setitem _ _ _ _) as (c1 & [u1|x1]); [|intros [= _ <- _]; constructor].
    destruct (c_setitem _ _ _ _) as (c2 & [u2|x2]); [|intros [= _ <- _]; constructor].
    unfold c_commit. destruct (check c2); [|intros [= _ <- _]; constructor]. destruct (y_journal c2); [intros [= _ <- _]; constructor|].
    destruct (as_ldap _ _) as [o|] eqn:A; [|intros [= _ <- _]; constructor]. destruct net; intros [= _ <- _]; constructor; [|constructor].
    unfold as_ldap in A. destruct (utf8_encode (dn_text (y_dn c2))); [|discriminate]. cbn [bind] in A. destruct (mapR _ _); [|discriminate]. cbn [bind] in A. injection A as <-. exact (fun F => F).
  Qed.
  Lemma known_nosearch net s s' r : samba_known lower upper nt lm new net s = (s', r) -> NS s -> NS s'.
  Proof.
    unfold samba_known. destruct (samba_style _ _ _) as [[old|]|]; [|intros [= <- _]; auto|intros [= <- _]; auto]. unfold samba_set. destruct (do _ <- check _; _) as [(n & l)|]; [|intros [= <- _]; auto].
    destruct (c_samba lower old (PBytes n) (PBytes l) net (p_ent s)) as ((c & sent) & [v|x]) eqn:C; apply samba_nosearch in C; intros E (F & W).
    - destruct sent as [|o sent]; injection E as <- _; (split; [|cbn; try exact W; discriminate]); cbn [p_sent w_send w_ent w_wait]; [exact F|]. apply Forall_app. now split.
    - destruct sent; injection E as <- _; (split; [|exact W]); cbn [p_sent w_send w_ent]; apply Forall_app; now split.
  Qed.
  Lemma nosearch_wait w s : NS s -> (forall q, w <> Some (WFetch q)) -> NS (w_wait w s).
  Proof. intros (F & _) W. split; [exact F|exact W]. Qed.
  Lemma record_nosearch r s : NS s -> NS (pw_record r s).
  Proof. unfold pw_record. destruct r as [u|x]; [|destruct (trapped x)]; auto. Qed.
  Lemma all_nosearch net todo : complete = true -> forall s, NS s -> NS (pw_all lower upper nt lm complete new net todo s).
  Proof.
    intros CP. induction todo as [|p todo IH]; intros s H; cbn [pw_all].
    - unfold pw_finish. destruct (flat_map _ _); exact H.
    - destruct (failing s); [apply IH; exact H|]. destruct (pw_begin lower upper nt lm complete new net p s) as (s' & r) eqn:Bg.
      assert (N : NS s').
      { destruct p; cbn [pw_begin] in Bg.
        - destruct (c_set_password new net (p_ent s)) as (sent & [v|x]) eqn:C.
          + destruct (password_sends _ _ _ _ _ C) as (b & w & _ & -> & _). injection Bg as <- _. split; [|discriminate]. cbn [p_sent w_send w_wait]. destruct H as (F & _). apply Forall_app. split; [exact F|].
            constructor; [exact (fun F => F)|constructor].
          + rewrite (password_fails _ _ _ _ _ C) in Bg. injection Bg as <- _. destruct H as (F & W). split; [cbn [p_sent w_send]; now rewrite app_nil_r|exact W].
        - unfold samba_maybe in Bg. rewrite CP in Bg. exact (known_nosearch _ _ _ _ Bg H). }
      destruct r as [r|]; [|exact N]. destruct (p_end (pw_record r s')); [now apply record_nosearch|]. apply IH. now apply record_nosearch.
  Qed.
  Lemma resume_nosearch net r s : complete = true -> NS s -> NS (resume net r s).
  Proof.
    intros CP H. unfold pw_resume. assert (X : NS (pw_record r (w_wait None s))) by (apply record_nosearch, nosearch_wait; [exact H|discriminate]).
    destruct (p_end _); [exact X|]. now apply all_nosearch.
  Qed.
  Lemma run_nosearch net0 c evs : complete = true -> NS (run evs (start net0 c)).
  Proof.
    intros CP. assert (H : NS (start net0 c)) by (apply all_nosearch; [exact CP|]; split; [constructor|discriminate]). revert H. generalize (start net0 c).
    induction evs as [|(net & e) evs IH]; intros s H; [exact H|]. cbn [pw_run fold_left]. apply IH. unfold pw_step. cbn [fst snd]. destruct (p_wait s) as [w|] eqn:W; [|exact H].
    destruct w as [|q|]; [| |]; [destruct e; now apply resume_nosearch|destruct H as (_ & H); now destruct (H q)|].
    destruct e as [m|x]; [|now apply resume_nosearch]. destruct (commit_success lower oc_first m (p_ent s)) as (c' & r). now apply resume_nosearch.
  Qed.
End SetPw.

(** ** The configuration *)
Lemma assoc_put k k' v l : assoc k (put k' v l) = if str_eqb k k' then Some v else assoc k l.
Proof.
  induction l as [|(x & w) l IH]; cbn [put assoc]; [destruct (str_eqb k k'); reflexivity|].
  destruct (str_eqb_spec k' x) as [->|N]; cbn [assoc]; [destruct (str_eqb_spec k x); reflexivity|]. rewrite IH. destruct (str_eqb_spec k x) as [->|]; [|reflexivity].
  destruct (str_eqb_spec x k'); [now destruct N|reflexivity].
Qed.
Lemma section_put k k' v l : section k (put k' v l) = if str_eqb k k' then Some v else section k l.
Proof.
  induction l as [|(x & w) l IH]; cbn [put section]; [destruct (str_eqb k k'); reflexivity|].
  destruct (str_eqb_spec k' x) as [->|N]; cbn [section]; [destruct (str_eqb_spec k x); reflexivity|]. rewrite IH. destruct (str_eqb_spec k x) as [->|]; [|reflexivity].
  destruct (str_eqb_spec x k'); [now destruct N|reflexivity].
Qed.
Definition latest (cur : option str) (l : list str) : option str := match rev l with v :: _ => Some v | [] => cur end.
Lemma latest_app cur a b : latest cur (a ++ b) = latest (latest cur a) b.
Proof. unfold latest. rewrite rev_app_distr. destruct (rev b); reflexivity. Qed.
Section Cfg.
  Variable lower : str -> str.
  Variables sec opt : str.
  Hypothesis ND : str_eqb sec (S_ "DEFAULT") = false.
  Definition held (c : cfg) : option str := match section sec (g_sections c) with Some o => assoc opt o | None => None end.
  Definition given (new : list (str * str)) : list str := flat_map (fun kv => if str_eqb (lower (fst kv)) opt then [snd kv] else []) new.
  Lemma options_latest new : forall old, assoc opt (read_options lower new old) = latest (assoc opt old) (given new).
  Proof.
    induction new as [|(k & v) new IH]; intros old; [reflexivity|]. change (read_options lower ((k, v) :: new) old) with (read_options lower new (put (lower k) v old)). rewrite IH, assoc_put.
    unfold given. cbn [flat_map fst snd]. rewrite latest_app. destruct (str_eqb_spec opt (lower k)) as [<-|N]; [destruct (str_eqb_spec opt opt); [reflexivity|contradiction]|].
    destruct (str_eqb_spec (lower k) opt) as [E|]; [now destruct N|reflexivity].
  Qed.
  Lemma section_latest c s : held (read_section lower c s) = latest (held c) (if str_eqb (fst s) sec then given (snd s) else []).
  Proof.
    unfold read_section, held. destruct (str_eqb_spec (fst s) (S_ "DEFAULT")) as [E|N]; cbn [g_sections].
    - rewrite E. destruct (str_eqb_spec (S_ "DEFAULT") sec) as [<-|]; [discriminate ND|reflexivity].
    - rewrite section_put. destruct (str_eqb_spec sec (fst s)) as [E|N2].
      + destruct (str_eqb_spec (fst s) sec) as [_|X]; [|now destruct X]. rewrite options_latest. rewrite <- E. destruct (section sec (g_sections c)); reflexivity.
      + destruct (str_eqb_spec (fst s) sec) as [X|_]; [now destruct N2|]. reflexivity.
  Qed.
  Lemma file_latest f : forall c, held (fold_left (read_section lower) f c) = latest (held c) (flat_map (fun so => if str_eqb (fst so) sec then given (snd so) else []) f).
  Proof. induction f as [|s f IH]; intros c; [reflexivity|]. cbn [fold_left flat_map]. now rewrite IH, section_latest, latest_app. Qed.
  Lemma files_latest fs : forall c, held (fold_left (fun c f => fold_left (read_section lower) f c) fs c) = latest (held c) (settings lower fs sec opt).
  Proof. induction fs as [|f fs IH]; intros c; [reflexivity|]. unfold settings. cbn [fold_left concat]. rewrite flat_map_app, IH, file_latest, latest_app. reflexivity. Qed.
End Cfg.
Lemma assoc_app_some k (a b : list (str * str)) v : assoc k a = Some v -> assoc k (a ++ b) = Some v.
Proof. induction a as [|(x & w) a IH]; [discriminate|]. cbn [assoc app]. destruct (str_eqb k x); auto. Qed.
Lemma lmhash_read lower files t :
  match last_setting lower files (S_ "samba") (S_ "use-lmhash") with Some v => v = doubled t | None => t = S_ "no" end ->
  use_lmhash lower (load_config lower files) = to_boolean lower t.
Proof.
  intros H. pose proof (files_latest lower (S_ "samba") (S_ "use-lmhash") eq_refl files cfg0) as L. fold (load_config lower files) in L.
  assert (HE : held (S_ "samba") (S_ "use-lmhash") (load_config lower files) = Some (doubled t)).
  { rewrite L. unfold latest. unfold last_setting in H. destruct (rev (settings lower files (S_ "samba") (S_ "use-lmhash"))); [subst t; reflexivity|now subst]. }
  unfold held in HE. unfold use_lmhash. destruct (section (S_ "samba") (g_sections (load_config lower files))) as [o|]; [|discriminate].
  unfold cfg_get. rewrite (assoc_app_some _ _ _ _ HE). rewrite (interp_doubled lower _ 9). reflexivity.
Qed.
