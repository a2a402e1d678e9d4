(** C91, C92: setting the password of an entry with setPassword, and the LanMan hash. *)
From Verif Require Import Base BaseFacts Utf8Model DnModel DnSpec EntryModel EntrySpec LdapModel LdapSpec DeltaModel LdifModel IdentityModel ServerModel ServerSpec ConfigModel ConfigSpec
  SyntaxModel SyntaxSpec SetPwModel SetPwSpec SetPwProofs.

(** ** C91 *)
(** Whatever the entry, whatever answers come and whatever raises: nothing is sent, or the password modify
    request first; anything more only when the first answer grants it, and then it is searches for the object classes of
    the entry and at most one modification, the last, which sets both hashes of the new password and is only sent for
    an entry in the object class of that kind of account. *)
Theorem C91_requests : forall lower upper io oc_first nt lm complete new, (forall s, ascii s -> lower s = ascii_lower s) ->
  forall net0 c evs s, s = pw_run lower upper io oc_first nt lm complete new evs (pw_start lower upper nt lm complete new net0 c) ->
  p_sent s = [] \/
  exists b o, utf8_encode (dn_text (y_dn c)) = Ok b /\ ask_password b new o /\
    (p_sent s = [o] \/
     exists net m evs' n tail, evs = (net, PwMsg m) :: evs' /\ ext_granted m /\ p_sent s = o :: repeat (ask_classes b) n ++ tail /\
       (tail = [] \/ exists old h l o', tail = [o'] /\ nt new = Ok h /\ lm new = Ok l /\ sets_hashes old b h l o' /\ in_class lower upper (samba_class old) (y_entry (p_ent s)))).
Proof.
  intros lower upper io oc_first nt lm complete new L net0 c evs s ->. destruct (story lower upper io oc_first nt lm complete new L net0 c evs) as [(x & S & _)|(b & o & EB & A & H)]; [now left|right].
  exists b, o. split; [exact EB|]. split; [exact A|]. destruct H as [(-> & E)|[(x & S & _)|(net & m & evs' & E & G & H)]]; [left; now rewrite E|now left|right].
  exists net, m, evs'.
  assert (X : exists n tail, sent_so_far lower upper nt lm new b o (pw_run lower upper io oc_first nt lm complete new evs (pw_start lower upper nt lm complete new net0 c)) n tail).
  { destruct H as [(_ & _ & _ & _ & n & tail & X & _)|(_ & n & tail & X & _)]; eauto. }
  destruct X as (n & tail & S & T). exists n, tail. split; [exact E|]. split; [exact G|]. split; [exact S|]. destruct T as [->|(o' & -> & old & h & l & N1 & L1 & SH & IC)]; [now left|right].
  exists old, h, l, o'. auto.
Qed.
Print Assumptions C91_requests.

(** An entry that is complete is not searched for again. *)
Theorem C91_complete : forall lower upper io oc_first nt lm new net0 c evs,
  Forall (fun o => ~ is_search o) (p_sent (pw_run lower upper io oc_first nt lm true new evs (pw_start lower upper nt lm true new net0 c))).
Proof. intros. now apply run_nosearch. Qed.
Print Assumptions C91_complete.

(** Success is reported only when the server has granted the password modify request and, for a Samba account,
    the modification of the hashes too. [oc_once]: an entry does not have objectClass under a text and an octet name at once. *)
Theorem C91_success_partial : forall lower upper io oc_first nt lm complete new, (forall s, ascii s -> lower s = ascii_lower s) ->
  forall net0 c evs s, s = pw_run lower upper io oc_first nt lm complete new evs (pw_start lower upper nt lm complete new net0 c) -> p_end s = Some PwDone ->
  exists net m evs', evs = (net, PwMsg m) :: evs' /\ ext_granted m /\
    ((oc_once lower (y_entry (p_ent s)) -> forall old, ~ in_class lower upper (samba_class old) (y_entry (p_ent s))) \/
     exists old b h l l0 o net' m', utf8_encode (dn_text (y_dn c)) = Ok b /\ p_sent s = l0 ++ [o] /\ nt new = Ok h /\ lm new = Ok l /\ sets_hashes old b h l o /\
       in_class lower upper (samba_class old) (y_entry (p_ent s)) /\ In (net', PwMsg m') evs' /\ mod_granted m').
Proof.
  intros lower upper io oc_first nt lm complete new L net0 c evs s -> D.
  destruct (story lower upper io oc_first nt lm complete new L net0 c evs) as [(x & _ & _ & E)|(b & o & EB & A & H)]; [rewrite D in E; unfold both_fail in E; destruct (trapped x); discriminate|].
  destruct H as [(-> & E)|[(x & _ & _ & E)|(net & m & evs' & E & G & H)]]; [rewrite E in D; discriminate|rewrite D in E; unfold both_fail in E; destruct (trapped x); discriminate|].
  exists net, m, evs'. split; [exact E|]. split; [exact G|]. destruct H as [(H & _)|(_ & n & tail & (S & T) & H)]; [rewrite D in H; discriminate|].
  destruct H as [(_ & [(_ & H)|(N & net' & m' & I & M)])|[(x & H & _)|(x & H & _)]]; [now left| |rewrite D in H; discriminate|rewrite D in H; discriminate].
  right. destruct T as [->|(o' & -> & old & h & l & N1 & L1 & SH & IC)]; [now destruct N|]. exists old, b, h, l, (o :: repeat (ask_classes b) n), o', net', m'. rewrite S. repeat (split; [solve [auto]|]). exact M.
Qed.
Print Assumptions C91_success_partial.

(** It has ended, or it waits for an answer; once it has ended nothing changes it. *)
Theorem C91_waits : forall lower upper io oc_first nt lm complete new, (forall s, ascii s -> lower s = ascii_lower s) ->
  forall net0 c evs s, s = pw_run lower upper io oc_first nt lm complete new evs (pw_start lower upper nt lm complete new net0 c) ->
  ((p_end s = None <-> p_wait s <> None) /\ forall evs', p_end s <> None -> pw_run lower upper io oc_first nt lm complete new evs' s = s).
Proof.
  intros lower upper io oc_first nt lm complete new L net0 c evs s E.
  assert (H : p_end s = None <-> p_wait s <> None).
  { subst s. destruct (story lower upper io oc_first nt lm complete new L net0 c evs) as [(x & _ & W & E)|(b & o & EB & A & H)]; [rewrite W, E; split; [discriminate|congruence]|].
    destruct H as [(-> & E)|[(x & _ & W & E)|(net & m & evs' & E & G & [(X & _ & _ & _ & n & tail & _ & W)|(W & n & tail & _ & X)])]].
    - rewrite E. split; [discriminate|reflexivity].
    - rewrite W, E. split; [discriminate|congruence].
    - rewrite X. split; [intros _|reflexivity]. destruct W as [(_ & q & ->)|(_ & ->)]; discriminate.
    - rewrite W. split; [|congruence]. intros Y. destruct X as [(X & _)|[(x & X & _)|(x & X & _)]]; congruence. }
  split; [exact H|]. intros evs' N. assert (W : p_wait s = None) by (destruct (p_wait s); [exfalso; apply N, H; discriminate|reflexivity]). clear - W.
  induction evs' as [|e l IH]; [reflexivity|]. cbn [pw_run fold_left]. unfold pw_step at 2. rewrite W. exact IH.
Qed.
Print Assumptions C91_waits.

(** A failure is reported with the plugins that failed: when the password modify request could not be sent or failed,
    nothing more was sent and the Samba plugin is reported as not tried; otherwise the Samba plugin failed alone, which says that the
    password itself has been changed. *)
Theorem C91_failure : forall lower upper io oc_first nt lm complete new, (forall s, ascii s -> lower s = ascii_lower s) ->
  forall net0 c evs s l, s = pw_run lower upper io oc_first nt lm complete new evs (pw_start lower upper nt lm complete new net0 c) -> p_end s = Some (PwAggregate l) ->
  exists x, ldap_failure x /\
    ((l = [(PExt, PwFail x); (PSamba, PwAborted)] /\ (length (p_sent s) <= 1)%nat) \/
     (l = [(PSamba, PwFail x)] /\ exists net m evs', evs = (net, PwMsg m) :: evs' /\ ext_granted m)).
Proof.
  assert (BF : forall x l, both_fail x = PwAggregate l -> ldap_failure x /\ l = [(PExt, PwFail x); (PSamba, PwAborted)]).
  { intros x l. unfold both_fail. destruct (trapped x) eqn:TR; [|discriminate]. intros [= <-]. apply trapped_iff in TR. auto. }
  intros lower upper io oc_first nt lm complete new L net0 c evs s l -> D.
  destruct (story lower upper io oc_first nt lm complete new L net0 c evs) as [(x & S & _ & E)|(b & o & EB & A & H)].
  - rewrite D in E. injection E as E. symmetry in E. apply BF in E as (T & ->). exists x. split; [exact T|]. left. split; [reflexivity|]. rewrite S. cbn. lia.
  - destruct H as [(-> & E)|[(x & S & _ & E)|(net & m & evs' & E & G & H)]]; [rewrite E in D; discriminate| |].
    + rewrite D in E. injection E as E. symmetry in E. apply BF in E as (T & ->). exists x. split; [exact T|]. left. split; [reflexivity|]. rewrite S. cbn. lia.
    + destruct H as [(H & _)|(_ & n & tail & (S & T) & H)]; [rewrite D in H; discriminate|].
      destruct H as [(H & _)|[(x & H & TR)|(x & H & _)]]; [rewrite D in H; discriminate| |rewrite D in H; discriminate]. rewrite D in H. injection H as ->. exists x. split; [now apply trapped_iff|]. right. split; [reflexivity|]. eauto.
Qed.
Print Assumptions C91_failure.

(** Only other exceptions escape. *)
Theorem C91_raised : forall lower upper io oc_first nt lm complete new, (forall s, ascii s -> lower s = ascii_lower s) ->
  forall net0 c evs s x, s = pw_run lower upper io oc_first nt lm complete new evs (pw_start lower upper nt lm complete new net0 c) -> p_end s = Some (PwRaised x) -> ~ ldap_failure x.
Proof.
  assert (BF : forall y x, both_fail y = PwRaised x -> ~ ldap_failure x).
  { intros y x. unfold both_fail. destruct (trapped y) eqn:TR; [discriminate|]. intros [= <-] F. apply trapped_iff in F. congruence. }
  intros lower upper io oc_first nt lm complete new L net0 c evs s x -> D.
  destruct (story lower upper io oc_first nt lm complete new L net0 c evs) as [(y & _ & _ & E)|(b & o & EB & A & H)].
  - rewrite D in E. injection E as E. exact (BF y x (eq_sym E)).
  - destruct H as [(-> & E)|[(y & _ & _ & E)|(net & m & evs' & E & G & H)]]; [rewrite E in D; discriminate| |].
    + rewrite D in E. injection E as E. exact (BF y x (eq_sym E)).
    + destruct H as [(H & _)|(_ & n & tail & _ & H)]; [rewrite D in H; discriminate|].
      destruct H as [(H & _)|[(y & H & _)|(y & H & TR)]]; [rewrite D in H; discriminate|rewrite D in H; discriminate|].
      rewrite D in H. injection H as <-. intros F. apply trapped_iff in F. congruence.
Qed.
Print Assumptions C91_raised.
Example C91_raised_case : exists c evs, p_end (pw_run ascii_lower (fun s => s) (fun _ _ => Err EValue) true (fun b => Err EValue) (fun b => Err EValue) false [] evs
  (pw_start ascii_lower (fun s => s) (fun b => Err EValue) (fun b => Err EValue) false [] None c)) = Some (PwRaised EAssert).
Proof. exists (new_cent ascii_lower [[mkAtv (S_ "cn") (S_ "x")]] []), [(None, PwMsg (OSeq KSeq 0 []))]. vm_compute. reflexivity. Qed.

(** The server refuses: that error is reported with the plugin, and the hashes are left alone whatever comes. *)
Theorem C91_refused : forall lower upper io oc_first nt lm complete new net0 c net t code d msg nm v evs,
  p_wait (pw_start lower upper nt lm complete new net0 c) <> None -> code <> 0 ->
  let s := pw_run lower upper io oc_first nt lm complete new ((net, PwMsg (OExtResp t (VInt code) d msg nm v)) :: evs) (pw_start lower upper nt lm complete new net0 c) in
  p_end s = Some (PwAggregate [(PExt, PwFail (ELdap code)); (PSamba, PwAborted)]) /\ length (p_sent s) = 1%nat.
Proof.
  intros lower upper io oc_first nt lm complete new net0 c net t code d msg nm v evs W N s.
  destruct (start_spec lower upper nt lm complete new net0 c) as [(x & E)|(b & o & EB & A & E)]; [rewrite E in W; now destruct W|]. unfold s. rewrite E. cbn [pw_run fold_left].
  assert (X : pw_step lower upper io oc_first nt lm complete new (begun c o) (net, PwMsg (OExtResp t (VInt code) d msg nm v)) = mkPws c [Some (PwFail (ELdap code)); Some PwAborted] [] None [o]
                (Some (PwAggregate [(PExt, PwFail (ELdap code)); (PSamba, PwAborted)]))).
  { unfold pw_step. cbn [p_wait begun snd fst]. assert (SD : set_password_done (OExtResp t (VInt code) d msg nm v) = Err (ELdap code)) by (cbn; destruct code; [now destruct N|reflexivity|reflexivity]).
    rewrite SD. rewrite first_fails. reflexivity. }
  rewrite X. assert (ST : forall l s, p_wait s = None -> fold_left (pw_step lower upper io oc_first nt lm complete new) l s = s).
  { induction l as [|e l IH]; intros s0 W0; [reflexivity|]. cbn [fold_left]. unfold pw_step at 2. rewrite W0. now apply IH. }
  rewrite ST by reflexivity. split; reflexivity.
Qed.
Print Assumptions C91_refused.

Definition up (s : str) : str := map (fun c => if (97 <=? c) && (c <=? 122) then c - 32 else c) s.
Definition pw_dn : dn := [[mkAtv (S_ "uid") (S_ "x")]; [mkAtv (S_ "dc") (S_ "com")]].
Definition pw_io : Z -> Z -> res Z := fun _ _ => Err EValue.
Definition pw_nt : bytes -> res bytes := fun _ => Ok (B "NT").
Definition pw_lm : bytes -> res bytes := fun _ => Ok (B "LM").
Definition pw_go (complete : bool) := pw_run ascii_lower up pw_io false pw_nt pw_lm complete (B "secret").
Definition pw_new (complete : bool) (c : cent) := pw_start ascii_lower up pw_nt pw_lm complete (B "secret") None c.
(** The entry before anything of it is known, and with its classes *)
Definition pw_c0 : cent := new_cent ascii_lower pw_dn [].
Definition pw_c1 (cls : list bytes) : cent := new_cent ascii_lower pw_dn [(PBytes (B "objectClass"), map PBytes cls)].
Definition ev (r : response) : option exn * pwevent := (None, PwMsg (response_obj r)).
Definition ev_ext : option exn * pwevent := ev (ExtendedResponse (mkResult 0 [] []) None None).
Definition ev_mod : option exn * pwevent := ev (ModifyResponse (mkResult 0 [] [])).
Definition ev_found (cls : list bytes) : list (option exn * pwevent) :=
  [ev (SearchEntry (B "uid=x,dc=com") (match cls with [] => [] | _ => [(B "objectClass", cls)] end)); ev (SearchDone (mkResult 0 [] []))].
(** A Samba account whose classes have to be asked for; an account that is none; one of each kind that is known;
    a modification that is refused. *)
Example C91_case :
  (exists o, map (fun s => (p_sent s, p_end s)) [pw_go false (ev_ext :: ev_found [B "person"; B "sambaSAMAccount"] ++ [ev_mod]) (pw_new false pw_c0)] =
    [([o; ask_classes (B "uid=x,dc=com");
       request_obj (Modify (B "uid=x,dc=com") [mkMod 2 (B "sambaNTPassword") [B "NT"]; mkMod 2 (B "sambaLMPassword") [B "LM"]])], Some PwDone)]) /\
  (let s := pw_go false (ev_ext :: ev_found [B "person"]) (pw_new false pw_c0) in length (p_sent s) = 2%nat /\ p_end s = Some PwDone) /\
  (let s := pw_go false [ev_ext] (pw_new false (pw_c1 [B "person"])) in length (p_sent s) = 1%nat /\ p_end s = Some PwDone) /\
  (let s := pw_go true [ev_ext] (pw_new true pw_c0) in length (p_sent s) = 1%nat /\ p_end s = Some PwDone) /\
  (exists o, p_sent (pw_go true [ev_ext; ev_mod] (pw_new true (pw_c1 [B "sambaAccount"; B "sambaSamAccount"]))) =
    [o; request_obj (Modify (B "uid=x,dc=com") [mkMod 2 (B "ntPassword") [B "NT"]; mkMod 2 (B "lmPassword") [B "LM"]])]) /\
  p_end (pw_go true [ev_ext; ev (ModifyResponse (mkResult 50 [] []))] (pw_new true (pw_c1 [B "sambaAccount"]))) = Some (PwAggregate [(PSamba, PwFail (ELdap 50))]) /\
  p_wait (pw_new false pw_c0) <> None /\ (forall s, ascii s -> ascii_lower s = ascii_lower s).
Proof.
  split; [eexists; vm_compute; reflexivity|]. split; [vm_compute; auto|]. split; [vm_compute; auto|]. split; [vm_compute; auto|]. split; [eexists; vm_compute; reflexivity|].
  split; [vm_compute; reflexivity|]. split; [vm_compute; discriminate|reflexivity].
Qed.

(** A server that answers, but does not show objectClass (no right to read it), is asked again without end:
    however often it answers, setPassword waits for the next answer. *)
Theorem C91_endless_refuted : forall n, exists c, let s := pw_go false (ev_ext :: concat (repeat (ev_found []) n)) (pw_new false c) in
  p_end s = None /\ exists o, p_sent s = o :: repeat (ask_classes (B "uid=x,dc=com")) (1 + n).
Proof.
  intros n. exists pw_c0. cbv zeta. set (s0 := pw_new false pw_c0).
  assert (R : forall n l, exists r, pw_go false (concat (repeat (ev_found []) n)) (mkPws pw_c0 [None] [] (Some (WFetch (mkSres [] None))) l None) = r /\
             p_end r = None /\ p_sent r = l ++ repeat (ask_classes (B "uid=x,dc=com")) n).
  { clear. induction n as [|n IH]; intros l; [eexists; split; [reflexivity|]; split; [reflexivity|symmetry; apply app_nil_r]|].
    destruct (IH (l ++ [ask_classes (B "uid=x,dc=com")])) as (r & E & P & Q). exists r. split; [|split; [exact P|rewrite Q, <- app_assoc; reflexivity]].
    rewrite <- E. cbn [repeat concat]. unfold pw_go, pw_run. rewrite fold_left_app. f_equal. }
  assert (S1 : exists o, pw_step ascii_lower up pw_io false pw_nt pw_lm false (B "secret") s0 ev_ext = mkPws pw_c0 [None] [] (Some (WFetch (mkSres [] None))) ([o] ++ [ask_classes (B "uid=x,dc=com")]) None).
  { eexists. vm_compute. reflexivity. }
  destruct S1 as (o & S1). unfold pw_go, pw_run. cbn [fold_left]. rewrite S1. destruct (R n ([o] ++ [ask_classes (B "uid=x,dc=com")])) as (r & E & P & Q). unfold pw_go, pw_run in E. rewrite E.
  split; [exact P|]. exists o. rewrite Q. reflexivity.
Qed.
Print Assumptions C91_endless_refuted.
(** An entry with changes that were not committed and whose classes are not known: the server has changed the password when ObjectDirtyError
    says that the call was wrong. *)
Theorem C91_dirty_refuted : exists c o, let s := pw_go false [ev_ext] (pw_new false c) in
  y_journal c <> [] /\ p_sent s = [o] /\ ask_password (B "uid=x,dc=com") (B "secret") o /\ p_end s = Some (PwRaised (EUser 42)).
Proof.
  exists (fst (c_edit ascii_lower (CSet (PBytes (B "sn")) (Listed [PBytes (B "s")])) pw_c0)). cbv zeta.
  destruct (start_spec ascii_lower up pw_nt pw_lm false (B "secret") None (fst (c_edit ascii_lower (CSet (PBytes (B "sn")) (Listed [PBytes (B "s")])) pw_c0))) as [(x & E)|(b & o & EB & A & E)].
  { exfalso. vm_compute in E. destruct x; discriminate. }
  exists o. vm_compute in EB. apply Ok_inj in EB. subst b. unfold pw_new. rewrite E. split; [vm_compute; discriminate|]. split; [|split; [exact A|vm_compute; reflexivity]].
  vm_compute. reflexivity.
Qed.
Print Assumptions C91_dirty_refuted.

(** ** C92 *)
(** The last value that the files give to use-lmhash in section samba decides ([doubled]: configparser takes %% for %);
    without one, the hash is not used, whatever section DEFAULT says. *)
Definition yes_words : list str := [S_ "1"; S_ "yes"; S_ "true"; S_ "on"].
Definition no_words : list str := [S_ "0"; S_ "no"; S_ "false"; S_ "off"].
Theorem C92_setting_partial : forall lower files,
  (forall t, last_setting lower files (S_ "samba") (S_ "use-lmhash") = Some (doubled t) ->
     (use_lmhash lower (load_config lower files) = Ok true <-> In (lower t) yes_words) /\ (use_lmhash lower (load_config lower files) = Ok false <-> In (lower t) no_words)) /\
  (last_setting lower files (S_ "samba") (S_ "use-lmhash") = None -> lower (S_ "no") = S_ "no" -> use_lmhash lower (load_config lower files) = Ok false).
Proof.
  intros lower files. split.
  - intros t H. rewrite (lmhash_read lower files t) by (now rewrite H). unfold to_boolean. fold yes_words. fold no_words.
    assert (EX : forall l v, existsb (str_eqb v) l = true <-> In v l).
    { intros l v. rewrite existsb_exists. split; [intros (y & I & E); destruct (str_eqb_spec v y); [now subst|discriminate]|intros I; exists v; split; [exact I|destruct (str_eqb_spec v v); [reflexivity|contradiction]]]. }
    assert (DJ : ~ (In (lower t) yes_words /\ In (lower t) no_words)).
    { intros (A & C). unfold yes_words in A. cbn [In] in A. destruct A as [A|[A|[A|[A|[]]]]]; rewrite <- A in C; apply EX in C; vm_compute in C; discriminate. }
    rewrite <- !EX in *. destruct (existsb (str_eqb (lower t)) yes_words), (existsb (str_eqb (lower t)) no_words); intuition congruence.
  - intros H N. rewrite (lmhash_read lower files (S_ "no")) by (now rewrite H). unfold to_boolean. rewrite N. reflexivity.
Qed.
Print Assumptions C92_setting_partial.
Example C92_setting_case : last_setting ascii_lower [[(S_ "samba", [(S_ "Use-LMhash", S_ "no")])]; [(S_ "DEFAULT", [(S_ "use-lmhash", S_ "no")]); (S_ "samba", [(S_ "use-lmhash", S_ "Yes")])]] (S_ "samba") (S_ "use-lmhash") = Some (doubled (S_ "Yes")) /\
  In (ascii_lower (S_ "Yes")) yes_words /\
  last_setting ascii_lower [[(S_ "DEFAULT", [(S_ "use-lmhash", S_ "yes")]); (S_ "samba", [])]] (S_ "samba") (S_ "use-lmhash") = None.
Proof. split; [reflexivity|]. split; [right; left; reflexivity|reflexivity]. Qed.

(** Unless the files turn it on, no LanMan hash leaves: whatever setPassword sends, the LanMan attribute it sets is 32 times X, and
    what passlib makes of the password plays no part. *)
Theorem C92_locked : forall lower upper io oc_first passlib_nt passlib_lm complete new files t, (forall s, ascii s -> lower s = ascii_lower s) ->
  match last_setting lower files (S_ "samba") (S_ "use-lmhash") with Some v => v = doubled t /\ In (lower t) no_words | None => True end ->
  let nt := nthash passlib_nt in let lm := lmhash passlib_lm (use_lmhash lower (load_config lower files)) in
  forall net0 c evs s o, s = pw_run lower upper io oc_first nt lm complete new evs (pw_start lower upper nt lm complete new net0 c) -> In o (p_sent s) ->
  exists b, utf8_encode (dn_text (y_dn c)) = Ok b /\
    (ask_password b new o \/ o = ask_classes b \/ exists old h, passlib_nt (firstn 128 new) = Ok h /\ sets_hashes old b (map upper_byte h) (repeat (z2b 88) 32) o).
Proof.
  intros lower upper io oc_first pn pl complete new files t L U nt lm net0 c evs s o E I.
  assert (UL : use_lmhash lower (load_config lower files) = Ok false).
  { destruct (C92_setting_partial lower files) as (A & C). destruct (last_setting lower files (S_ "samba") (S_ "use-lmhash")); [destruct U as (-> & U); now apply (A t eq_refl)|].
    apply C; [reflexivity|]. rewrite L; [reflexivity|]. vm_compute. repeat (constructor; [split; [discriminate|reflexivity]|]). constructor. }
  destruct (C91_requests lower upper io oc_first nt lm complete new L net0 c evs s E) as [S|(b & o1 & EB & A & H)]; [rewrite S in I; destruct I|]. exists b. split; [exact EB|].
  destruct H as [S|(net & m & evs' & n & tail & _ & _ & S & T)]; rewrite S in I.
  - destruct I as [<-|[]]. now left.
  - destruct I as [<-|I]; [now left|]. apply in_app_or in I as [I|I]; [right; left; now apply repeat_spec in I|]. destruct T as [->|(old & h & l & o' & -> & N & LM & SH & _)]; [destruct I|]. destruct I as [<-|[]].
    right. right. unfold lm in LM. rewrite UL in LM. cbn in LM. apply Ok_inj in LM. subst l. unfold nt, nthash in N. apply bind_ok in N as (h0 & N0 & N). apply Ok_inj in N. subst h. exists old, h0. split; [exact N0|exact SH].
Qed.
Print Assumptions C92_locked.
Example C92_locked_case : exists o1 o2,
  p_sent (pw_run ascii_lower up pw_io false (nthash (fun _ => Ok (B "ab"))) (lmhash (fun _ => Ok (B "cd")) (use_lmhash ascii_lower (load_config ascii_lower []))) true (B "secret") [ev_ext; ev_mod]
    (pw_start ascii_lower up (nthash (fun _ => Ok (B "ab"))) (lmhash (fun _ => Ok (B "cd")) (use_lmhash ascii_lower (load_config ascii_lower []))) true (B "secret") None (pw_c1 [B "sambaAccount"]))) = [o1; o2] /\
  sets_hashes true (B "uid=x,dc=com") (B "AB") (repeat (z2b 88) 32) o2.
Proof. do 2 eexists. split; [vm_compute; reflexivity|]. exists []. vm_compute. reflexivity. Qed.
(** Passwords that agree in their first 128 octets have the same NT hash, whatever the rest. *)
Theorem C92_long_refuted : exists p p', p <> p' /\ forall passlib_nt, nthash passlib_nt p = nthash passlib_nt p'.
Proof. exists (repeat (z2b 97) 128), (repeat (z2b 97) 129). split; [intros E; apply (f_equal (@length byte)) in E; rewrite !repeat_length in E; lia|]. intros f. unfold nthash. reflexivity. Qed.
Print Assumptions C92_long_refuted.
