(** C43-C46, C73-C75: client-side entries. *)
From Coq Require Import Permutation.
From Verif Require Import Base BaseFacts Utf8Model DnModel DnSpec EntryModel EntrySpec LdapModel LdapSpec DeltaModel UtilModel LdifModel PwSpec InmemModel ServerModel ServerSpec
  SyntaxModel SyntaxSpec SyntaxProofs SyntaxRuns SyntaxFetch.

Definition sx_dn : dn := [[mkAtv (S_ "cn") (S_ "x")]; [mkAtv (S_ "dc") (S_ "com")]].
Definition sx_items : list (pyval * list pyval) :=
  [(PBytes (B "cn"), [PBytes (B "x")]); (PBytes (B "mail"), [PBytes (B "a"); PBytes (B "b")]); (PBytes (B "objectClass"), [PBytes (B "person")])].
Definition sx_0 : cent := new_cent ascii_lower sx_dn sx_items.
Definition sx_ok : obj := response_obj (ModifyResponse (mkResult 0 [] [])).
Lemma sx_typed : forall k vs, In (k, vs) sx_items -> name false k /\ Forall (typed false) vs.
Proof.
  intros k vs [E|[E|[E|[]]]]; injection E as <- <-; (split; [split; [eexists; vm_compute; reflexivity|discriminate]|]); repeat (apply Forall_cons; [eexists; vm_compute; reflexivity|]); constructor.
Qed.

(** ** C43 *)
(** An entry that starts as the server's, under any sequence of covered edits ([fits]), undos, commits,
    and answers to them: with nothing journaled it is the server's; undo always gives the server's;
    a commit sends modifications that turn what the server holds into the entry, and when the server has
    applied them, the client keeps the entry and has nothing left to send. [strict]: whether the
    server refuses to add a value that is there. *)
Theorem C43_commit_agrees_partial : forall lower oc_first, (forall s, ascii s -> lower s = ascii_lower s) ->
  forall strict kt vt d its c O p, (forall k vs, In (k, vs) its -> name kt k /\ Forall (typed vt) vs) ->
  wreach lower oc_first strict kt vt (new_cent lower d its, octs (new_entry lower d its), None) (c, O, p) ->
  (y_journal c = [] -> same_map (octs (y_entry c)) O) /\
  (exists c', c_undo lower oc_first c = (c', Ok tt) /\ same_map (octs (y_entry c')) O /\ y_journal c' = []) /\
  (p = None -> y_journal c <> [] -> forall b, utf8_encode (dn_text (y_dn c)) = Ok b ->
     exists ms, c_commit None c = ([request_obj (Modify b ms)], Ok XNone) /\ omods strict ms O (octs (y_entry c))) /\
  (forall o, p = Some o -> exists b ms, utf8_encode (dn_text (y_dn c)) = Ok b /\ o = request_obj (Modify b ms) /\ omods strict ms O (octs (y_entry c)) /\ Forall utf8_mod ms /\
     forall m, exists c', commit_success lower oc_first (response_obj (ModifyResponse (mkResult 0 [] m))) c = (c', Ok tt) /\
       y_entry c' = y_entry c /\ y_journal c' = []).
Proof. exact commit_world. Qed.
Print Assumptions C43_commit_agrees_partial.
(** With ldaptor's own server holding the entry: the commit succeeds, and the directory's entry then says what the client's does. *)
Theorem C43_own_server_partial : forall lower, (forall s, ascii s -> lower s = ascii_lower s) ->
  forall io sha oc_first pw_first odd_match text depth strict kt vt d its c O o s salt tag i cs r n,
  (forall k vs, In (k, vs) its -> name kt k /\ Forall (typed vt) vs) ->
  wreach lower oc_first strict kt vt (new_cent lower d its, octs (new_entry lower d its), None) (c, O, Some o) ->
  dn_ok (y_dn c) -> lookup lower depth (v_heap s) (v_root s) (y_dn c) = Ok r -> nth_error (v_heap s) r = Some n ->
  entry_ok lower false false (n_entry n) -> (forall k v, octs (n_entry n) k v <-> O k v) -> i <> 0 -> no_critical cs ->
  exists e' fin m, let s' := set_heap s (set_nth r (set_entry n e') (v_heap s)) in
    handle lower io sha oc_first pw_first odd_match text depth s salt (OMessage tag (VInt i) o cs) = Ok (s', [fin]) /\
    (sane i (ModifyResponse (mkResult 0 [] m)) -> sends fin i (ModifyResponse (mkResult 0 [] m))) /\
    e_dn e' = e_dn (n_entry n) /\ entry_ok lower false false e' /\ forall k v, octs e' k v <-> octs (y_entry c) k v.
Proof. exact own_server. Qed.
Print Assumptions C43_own_server_partial.

(** A run that meets the hypotheses: an addition, a removal, a replacement, a deletion, a commit. *)
Definition sx_edits : list cedit :=
  [COn (PStr (S_ "Mail")) (SAdd (PBytes (B "c"))); COn (PBytes (B "mail")) (SRemove (PBytes (B "a")));
   CSet (PBytes (B "sn")) (Listed [PBytes (B "s")]); CDel (PBytes (B "sn"))].
Definition sx_1 : cent := Eval vm_compute in fold_left (fun c x => fst (c_edit ascii_lower x c)) sx_edits sx_0.
Example C43_case : exists o, wreach ascii_lower true true false false (sx_0, octs (y_entry sx_0), None) (sx_1, octs (y_entry sx_0), Some o) /\
  length (y_journal sx_1) = 4%nat /\ get_values ascii_lower (PBytes (B "mail")) (y_entry sx_1) = Ok [PBytes (B "b"); PBytes (B "c")].
Proof.
  eexists. split; [|split; vm_compute; reflexivity].
  eapply W_more; [|eapply (W_commit _ _ _ _ _ _ _ None); vm_compute; reflexivity].
  eapply W_more; [eapply W_more; [eapply W_more; [eapply W_more; [apply W_here|]|]|]|].
  - eapply (W_edit _ _ _ _ _ (COn (PStr (S_ "Mail")) (SAdd (PBytes (B "c"))))); [|vm_compute; reflexivity].
    split; [eexists; vm_compute; reflexivity|]. intros a G. vm_compute in G. injection G as <-. split; [eexists; vm_compute; reflexivity|]. intros _ [E|[E|[]]]; discriminate.
  - eapply (W_edit _ _ _ _ _ (COn (PBytes (B "mail")) (SRemove (PBytes (B "a"))))); [|vm_compute; reflexivity].
    split; [eexists; vm_compute; reflexivity|]. intros a G. exact I.
  - eapply (W_edit _ _ _ _ _ (CSet (PBytes (B "sn")) (Listed [PBytes (B "s")]))); [|vm_compute; reflexivity].
    split; [split; [eexists; vm_compute; reflexivity|discriminate]|]. eexists. split; [reflexivity|]. constructor; [eexists; vm_compute; reflexivity|constructor].
  - eapply (W_edit _ _ _ _ _ (CDel (PBytes (B "sn")))); [|vm_compute; reflexivity].
    split; [split; [eexists; vm_compute; reflexivity|discriminate]|]. intros a G. vm_compute in G. injection G as <-. discriminate.
Qed.

(** Text among values that are bytes: the server applies the commit, then the client fails, and its
    next commit sends the same again, which the server refuses if it is strict. *)
Theorem C43_mixed_values_refuted : exists c c1 o,
  c = new_cent ascii_lower sx_dn sx_items /\ c_edit ascii_lower (COn (PBytes (B "mail")) (SAdd (PStr (S_ "c")))) c = (c1, Ok tt) /\
  c_commit None c1 = ([o], Ok XNone) /\ commit_success ascii_lower true sx_ok c1 = (c1, Err EType) /\ c_commit None c1 = ([o], Ok XNone).
Proof. do 3 eexists. split; [reflexivity|]. split; [vm_compute; reflexivity|]. split; [vm_compute; reflexivity|]. split; vm_compute; reflexivity. Qed.
Print Assumptions C43_mixed_values_refuted.
(** A text name for an attribute stored under bytes: the entry gets a second attribute of that name, the server replaces the first. *)
Theorem C43_mixed_names_refuted : exists c1 o b m, c_edit ascii_lower (CSet (PStr (S_ "mail")) (Listed [PBytes (B "c")])) sx_0 = (c1, Ok tt) /\
  c_commit None c1 = ([o], Ok XNone) /\ o = request_obj (Modify b [m]) /\ m = mkMod 2 (B "mail") [B "c"] /\
  octs (y_entry c1) (B "mail") (B "a") /\ ~ omods false [m] (octs (y_entry sx_0)) (octs (y_entry c1)).
Proof.
  exists (fst (c_edit ascii_lower (CSet (PStr (S_ "mail")) (Listed [PBytes (B "c")])) sx_0)).
  eexists. exists (B "cn=x,dc=com"), (mkMod 2 (B "mail") [B "c"]).
  split; [vm_compute; reflexivity|]. split; [vm_compute; reflexivity|]. split; [vm_compute; reflexivity|]. split; [reflexivity|].
  assert (X : octs (y_entry (fst (c_edit ascii_lower (CSet (PStr (S_ "mail")) (Listed [PBytes (B "c")])) sx_0))) (B "mail") (B "a")).
  { exists (mkSet (PBytes (B "mail")) [PBytes (B "a"); PBytes (B "b")]), (B "mail"). split; [right; left; reflexivity|]. split; [reflexivity|]. split; [reflexivity|].
    exists (PBytes (B "a")). split; [now left|reflexivity]. }
  split; [exact X|]. intros (Q & (_ & H) & E). apply E in X. cbn [m_op m_values m_attr] in H.
  destruct H as [(Z1 & _)|[(Z1 & _)|[(Z1 & _)|(_ & H)]]]; try discriminate. apply H in X. destruct X as [X|[]]. discriminate.
Qed.
Print Assumptions C43_mixed_names_refuted.
(** The methods that the sets inherit are not journaled: the change is never sent. *)
Theorem C43_discard_refuted : exists c1, c_edit ascii_lower (COn (PBytes (B "mail")) (SDiscard (PBytes (B "a")))) sx_0 = (c1, Ok tt) /\
  get_values ascii_lower (PBytes (B "mail")) (y_entry c1) = Ok [PBytes (B "b")] /\ c_commit None c1 = ([], Ok XNone).
Proof. eexists. split; [vm_compute; reflexivity|]. split; vm_compute; reflexivity. Qed.
Print Assumptions C43_discard_refuted.
(** An iterator: the entry gets its values, the server is told to remove the attribute. *)
Theorem C43_iterator_refuted : exists c1 b, c_edit ascii_lower (CSet (PBytes (B "mail")) (Once [PBytes (B "c")])) sx_0 = (c1, Ok tt) /\
  get_values ascii_lower (PBytes (B "mail")) (y_entry c1) = Ok [PBytes (B "c")] /\ c_commit None c1 = ([request_obj (Modify b [mkMod 2 (B "mail") []])], Ok XNone).
Proof. do 2 eexists. split; [vm_compute; reflexivity|]. split; vm_compute; reflexivity. Qed.
Print Assumptions C43_iterator_refuted.
(** Adding a value that is not UTF-8 raises, and is sent none the less; the entry does not have it. *)
Theorem C43_binary_refuted : exists c1 x b, c_edit ascii_lower (COn (PBytes (B "mail")) (SAdd (PBytes [z2b 255]))) sx_0 = (c1, Err x) /\
  y_entry c1 = y_entry sx_0 /\ c_commit None c1 = ([request_obj (Modify b [mkMod 0 (B "mail") [[z2b 255]]])], Ok XNone).
Proof. do 3 eexists. split; [vm_compute; reflexivity|]. split; vm_compute; reflexivity. Qed.
Print Assumptions C43_binary_refuted.
(** Clearing an attribute twice: the second removal is of an attribute that the server no longer has, so it refuses all. *)
Theorem C43_clear_twice_refuted : exists c1 c2 b ms, c_edit ascii_lower (COn (PBytes (B "mail")) SClear) sx_0 = (c1, Ok tt) /\
  c_edit ascii_lower (COn (PBytes (B "mail")) SClear) c1 = (c2, Ok tt) /\
  c_commit None c2 = ([request_obj (Modify b ms)], Ok XNone) /\ forall strict O', ~ omods strict ms (octs (y_entry sx_0)) O'.
Proof.
  do 4 eexists. split; [vm_compute; reflexivity|]. split; [vm_compute; reflexivity|]. split.
  - instantiate (2 := B "cn=x,dc=com"). instantiate (1 := [mkMod 1 (B "mail") []; mkMod 1 (B "mail") []]). vm_compute. reflexivity.
  - intros strict O' (O1 & (_ & H1) & O2 & (_ & H2) & _). cbn [m_op m_values m_attr] in *.
    destruct H1 as [(Z1 & _)|[(_ & _ & _ & H1)|[(_ & Z1 & _)|(Z1 & _)]]]; try discriminate; try congruence.
    destruct H2 as [(Z1 & _)|[(_ & _ & (v & V) & _)|[(_ & Z1 & _)|(Z1 & _)]]]; try discriminate; try congruence. exact (H1 v V).
Qed.
Print Assumptions C43_clear_twice_refuted.

(** Reading shows the entry as it is after the edits: attributes by name in either type and any case,
    the names, their number, and the items; it sends nothing and changes nothing. *)
Theorem C43_reads : forall lower oc_first, (forall s, ascii s -> lower s = ascii_lower s) -> forall kt vt net c, y_deleted c = false -> ent_ok lower kt vt (y_entry c) ->
  (forall k, convertible k -> exists o, run_call lower oc_first net (KGetItem k) c = (c, [], match o with Some a => Ok (XSet a) | None => Err EKey end) /\
     run_call lower oc_first net (KGet k) c = (c, [], Ok (XGet (option_map s_vals o))) /\
     run_call lower oc_first net (KHas k) c = (c, [], Ok (XBool (match o with Some _ => true | None => false end))) /\
     match o with
     | Some a => In a (e_attrs (y_entry c)) /\ exists k', spells k k' /\ lowv lower (s_key a) = lowv lower k'
     | None => forall a k', In a (e_attrs (y_entry c)) -> spells k k' -> lowv lower (s_key a) <> lowv lower k'
     end) /\
  (exists ks, run_call lower oc_first net KKeys c = (c, [], Ok (XKeys ks)) /\ run_call lower oc_first net KLen c = (c, [], Ok (XNum (length ks))) /\
     NoDup (map (lowv lower) ks) /\ (forall k, In k (map (lowv lower) ks) <-> In k (map (fun a => lowv lower (s_key a)) (e_attrs (y_entry c))))) /\
  exists l, run_call lower oc_first net KItems c = (c, [], Ok (XItems l)) /\
     forall k v, holds lower (y_entry c) k v <-> exists k' vs, In (k', vs) l /\ lowv lower k' = lowv lower k /\ In v vs.
Proof. intros lower oc_first L. exact (reads lower oc_first L). Qed.
Print Assumptions C43_reads.
Example C43_reads_case : convertible (PStr (S_ "MAIL")) /\ (exists a, run_call ascii_lower true None (KGetItem (PStr (S_ "MAIL"))) sx_1 = (sx_1, [], Ok (XSet a)) /\ ~ In a (e_attrs (y_entry sx_0))) /\
  run_call ascii_lower true None KLen sx_1 <> run_call ascii_lower true None KLen sx_0.
Proof.
  split; [eexists; vm_compute; reflexivity|]. split; [|vm_compute; discriminate].
  eexists. split; [vm_compute; reflexivity|]. vm_compute. intros X. repeat destruct X as [X|X]; try discriminate; contradiction.
Qed.

(** ** C44 *)
(** A modification journaled while no commit waits is never lost: whatever edits, commits (successful
    or not), answers and failures follow, it is still journaled or some later request carries it. *)
Theorem C44_edit_not_lost_partial : forall lower oc_first s x l m, n_waiting s = O -> ~ In NUndo l -> In m (y_journal (fst (c_edit lower x (n_cent s)))) ->
  exists new, n_sent (nrun lower oc_first (NEdit x :: l) s) = n_sent s ++ new /\
    (In m (y_journal (n_cent (nrun lower oc_first (NEdit x :: l) s))) \/ exists o, In o new /\ carries o m).
Proof. exact edit_not_lost. Qed.
Print Assumptions C44_edit_not_lost_partial.
(** Edits, then a commit that is answered with success: one request, with the modifications of all edits in order and nothing else; afterwards nothing is left to send. *)
Theorem C44_turn_by_turn : forall lower oc_first s xs msg c, n_waiting s = O -> c = n_cent (nrun lower oc_first (map NEdit xs) s) ->
  snd (c_commit None c) = Ok XNone -> snd (commit_success lower oc_first msg c) = Ok tt -> y_journal c <> [] ->
  exists b ms, Forall2 (fun m x => exists key vals, to_bytes (d_key m) = Ok key /\ mapR to_bytes (d_vals m) = Ok vals /\
                 x = mkMod (match d_kind m with MAdd => 0 | MDelete => 1 | MReplace => 2 end) key vals) (y_journal c) ms /\
    utf8_encode (dn_text (y_dn c)) = Ok b /\
    n_sent (nrun lower oc_first (map NEdit xs ++ [NCommit None; NAnswer msg]) s) = n_sent s ++ [request_obj (Modify b ms)] /\
    y_journal (n_cent (nrun lower oc_first (map NEdit xs ++ [NCommit None; NAnswer msg]) s)) = [] /\
    n_waiting (nrun lower oc_first (map NEdit xs ++ [NCommit None; NAnswer msg]) s) = O.
Proof. exact turn. Qed.
Print Assumptions C44_turn_by_turn.
(** An edit made while a commit waits is lost: the answer to the commit drops it from the journal, no
    request carries it, and later commits send nothing. *)
Theorem C44_edit_while_waiting_refuted : exists x1 x2 m,
  let s := nrun ascii_lower true [NEdit x1; NCommit None; NEdit x2; NAnswer sx_ok; NCommit None] (mkN sx_0 [] 0) in
  y_journal (fst (c_edit ascii_lower x2 sx_0)) = [m] /\ n_waiting s = O /\ y_journal (n_cent s) = [] /\ (forall o, In o (n_sent s) -> ~ carries o m) /\
  get_values ascii_lower (PBytes (B "sn")) (y_entry (n_cent s)) = Ok [PBytes (B "s")].
Proof.
  exists (COn (PBytes (B "mail")) (SAdd (PBytes (B "c")))), (CSet (PBytes (B "sn")) (Listed [PBytes (B "s")])), (mkDelta MReplace (PBytes (B "sn")) [PBytes (B "s")]).
  cbn zeta. split; [vm_compute; reflexivity|]. split; [vm_compute; reflexivity|]. split; [vm_compute; reflexivity|]. split; [|vm_compute; reflexivity].
  assert (E : exists d, n_sent (nrun ascii_lower true [NEdit (COn (PBytes (B "mail")) (SAdd (PBytes (B "c")))); NCommit None;
     NEdit (CSet (PBytes (B "sn")) (Listed [PBytes (B "s")])); NAnswer sx_ok; NCommit None] (mkN sx_0 [] 0)) = [request_obj (Modify d [mkMod 0 (B "mail") [B "c"]])]) by (eexists; vm_compute; reflexivity).
  destruct E as (d & ->). intros o [<-|[]] (d' & ms & key & vals & E & K & V & I). apply Ok_inj in K. subst key.
  destruct ms as [|[op at_ vs] [|m2 ms]]; cbn in E; try discriminate. injection E as _ E1 E2 _. destruct I as [I|[]]. injection I as -> -> _. discriminate.
Qed.
Print Assumptions C44_edit_while_waiting_refuted.
(** Two commits before the first answer: the same modification is sent twice. *)
Theorem C44_sent_twice_refuted : exists x o, c_edit ascii_lower x sx_0 = (fst (c_edit ascii_lower x sx_0), Ok tt) /\
  length (y_journal (fst (c_edit ascii_lower x sx_0))) = 1%nat /\
  n_sent (nrun ascii_lower true [NEdit x; NCommit None; NCommit None; NAnswer sx_ok; NAnswer sx_ok] (mkN sx_0 [] 0)) = [o; o].
Proof. exists (COn (PBytes (B "mail")) (SAdd (PBytes (B "c")))). eexists. split; [vm_compute; reflexivity|]. split; vm_compute; reflexivity. Qed.
Print Assumptions C44_sent_twice_refuted.
(** A failed commit and an edit after it: both edits are in the second request. *)
Example C44_case : let l := [NEdit (COn (PBytes (B "mail")) (SAdd (PBytes (B "c")))); NCommit None; NAnswer (response_obj (ModifyResponse (mkResult 50 [] [])));
     NEdit (CSet (PBytes (B "sn")) (Listed [PBytes (B "s")])); NCommit None; NAnswer sx_ok] in
  exists d o1, n_sent (nrun ascii_lower true l (mkN sx_0 [] 0)) = [o1; request_obj (Modify d [mkMod 0 (B "mail") [B "c"]; mkMod 2 (B "sn") [B "s"]])] /\
  y_journal (n_cent (nrun ascii_lower true l (mkN sx_0 [] 0))) = [].
Proof. cbn zeta. do 2 eexists. split; vm_compute; reflexivity. Qed.

(** ** C45 *)
(** After a delete has been sent, every sequence of calls (other than bind, lookup and namingContext)
    raises ObjectDeletedError each time, sends nothing and changes nothing; so does a commit's late answer. *)
Theorem C45_deleted_entry_unusable_partial : forall lower oc_first net c c' l r, c_delete net c = (c', l, Ok r) ->
  (exists b, utf8_encode (dn_text (y_dn c)) = Ok b /\ l = [request_obj (Delete b)]) /\
  (forall ks, Forall (fun nk => checked (snd nk)) ks -> calls lower oc_first ks c' = (c', map (fun _ => ([], Err EDeleted)) ks)) /\
  (forall msg, exists x, commit_success lower oc_first msg c' = (c', Err x)).
Proof.
  intros lower oc_first net c c' l r H. destruct (delete_deletes _ _ _ _ _ H) as (D & _ & B). split; [exact B|]. split.
  - intros ks F. now apply deleted_calls.
  - intros msg. now apply deleted_answer.
Qed.
Print Assumptions C45_deleted_entry_unusable_partial.
(** bind, lookup and namingContext do not look at the state: they send a request. *)
Theorem C45_bind_refuted : exists c l r, c_delete None sx_0 = (c, l, Ok r) /\
  (exists o, run_call ascii_lower true None (KBind (B "secret")) c = (c, [o], Ok XNone)) /\
  (exists o, run_call ascii_lower true None (KLookup sx_dn) c = (c, [o], Ok XNone)) /\
  (exists o, run_call ascii_lower true None KNamingContext c = (c, [o], Ok XNone)).
Proof. do 3 eexists. split; [vm_compute; reflexivity|]. split; [eexists; vm_compute; reflexivity|]. split; eexists; vm_compute; reflexivity. Qed.
Print Assumptions C45_bind_refuted.
(** An attribute set taken before the delete can still be added to. *)
Theorem C45_held_set_refuted : exists c l r a c1, getitem ascii_lower (PBytes (B "mail")) (y_entry sx_0) = Ok a /\ c_delete None sx_0 = (c, l, Ok r) /\
  set_method (SAdd (PBytes (B "c"))) (s_key a) (s_vals a) c = (c1, s_vals a ++ [PBytes (B "c")], Ok tt) /\ c1 <> c.
Proof.
  do 5 eexists. split; [vm_compute; reflexivity|]. split; [vm_compute; reflexivity|]. split; [vm_compute; reflexivity|]. intros E. apply (f_equal y_journal) in E. discriminate.
Qed.
Print Assumptions C45_held_set_refuted.
(** A refused delete leaves the entry unusable, though the server still has it. *)
Theorem C45_refused_delete_refuted : exists c l r, c_delete None sx_0 = (c, l, Ok r) /\
  delete_done (response_obj (DeleteResponse (mkResult 50 [] []))) = Err (ELdap 50) /\ run_call ascii_lower true None KKeys c = (c, [], Err EDeleted).
Proof. do 3 eexists. split; [vm_compute; reflexivity|]. split; vm_compute; reflexivity. Qed.
Print Assumptions C45_refused_delete_refuted.
Example C45_case : exists c l, c_delete None sx_0 = (c, l, Ok XNone) /\
  calls ascii_lower true [(None, KGetItem (PBytes (B "mail"))); (None, KEdit (CDel (PBytes (B "mail")))); (None, KCommit); (None, KDelete)] c =
    (c, [([], Err EDeleted); ([], Err EDeleted); ([], Err EDeleted); ([], Err EDeleted)]) /\
  exists k, run_call ascii_lower true None (KEdit (CDel (PBytes (B "mail")))) sx_0 = (k, [], Ok XNone).
Proof. do 2 eexists. split; [vm_compute; reflexivity|]. split; [vm_compute; reflexivity|]. eexists; vm_compute; reflexivity. Qed.

(** ** C46 *)
(** Entries and references, then the final result: what was found is exactly the entries, in order,
    each with the DN and the attributes sent. Before the final result the search goes on; code 0 ends
    it with success; a code other than 0 and 4 makes it fail with that code. *)
Theorem C46_search_partial : forall lower io lax rs, Forall (search_part io) rs ->
  exists cs, Forall2 (entry_sent io) (List.filter is_entry rs) cs /\
    search_run lower io lax (map response_obj rs) (mkSres [] None) = mkSres cs None /\
    forall res extra,
      let s := search_run lower io lax (map response_obj rs ++ response_obj (SearchDone res) :: extra) (mkSres [] None) in
      (r_code res = 0 -> r_dn res = [] -> s = mkSres cs (Some (Ok tt))) /\
      (r_code res <> 0 -> r_code res <> 4 -> s = mkSres cs (Some (Err (ELdap (r_code res))))) /\
      (r_code res = 4 -> r_dn res = [] -> s = mkSres cs (Some (Ok tt))).
Proof. exact search_outcome. Qed.
Print Assumptions C46_search_partial.
Definition sx_search : list response :=
  [SearchEntry (B "cn=x,dc=com") [(B "cn", [B "x"]); (B "mail", [B "a"; B "b"])]; SearchReference [B "ldap://h"]; SearchEntry (B "dc=com") []].
(** A response of another kind, or an entry whose DN cannot be read, ends the search as a failure with
    what was found until then, and whatever comes after is not looked at. *)
Theorem C46_stops : forall lower io lax rs, Forall (search_part io) rs ->
  exists cs, Forall2 (entry_sent io) (List.filter is_entry rs) cs /\ forall extra,
    (forall r, match r with SearchEntry _ _ => False | SearchReference _ => False | SearchDone _ => False | _ => True end ->
       search_run lower io lax (map response_obj rs ++ response_obj r :: extra) (mkSres [] None) = mkSres cs (Some (Err (ELdap 2)))) /\
    (forall dn ats x, NoDup (map fst ats) -> utf8_decode dn = Err x ->
       search_run lower io lax (map response_obj rs ++ response_obj (SearchEntry dn ats) :: extra) (mkSres [] None) = mkSres cs (Some (Err x))) /\
    (forall dn ats t x, NoDup (map fst ats) -> utf8_decode dn = Ok t -> parse_dn io t = Err x ->
       search_run lower io lax (map response_obj rs ++ response_obj (SearchEntry dn ats) :: extra) (mkSres [] None) = mkSres cs (Some (Err x))).
Proof. exact search_stops. Qed.
Print Assumptions C46_stops.
Example C46_stops_case : (exists x, utf8_decode [x80] = Err x) /\ exists t x, utf8_decode (B "dc") = Ok t /\ parse_dn (fun _ _ => Err EValue) t = Err x.
Proof. split; [exists EUnicode; vm_compute; reflexivity|]. exists (S_ "dc"), (EUser 1). split; vm_compute; reflexivity. Qed.
(** sizeLimitExceeded is success although the caller has not marked it non-fatal. *)
Theorem C46_size_limit_refuted : exists rs cs, length cs = 2%nat /\
  search_run ascii_lower (fun _ _ => Err EValue) false (map response_obj rs ++ [response_obj (SearchDone (mkResult 4 [] []))]) (mkSres [] None) = mkSres cs (Some (Ok tt)).
Proof. exists sx_search. eexists. split; [|vm_compute; reflexivity]. reflexivity. Qed.
Print Assumptions C46_size_limit_refuted.
(** An attribute sent twice in one entry: the first values are dropped. *)
Theorem C46_repeated_name_refuted : exists c,
  search_run ascii_lower (fun _ _ => Err EValue) false [response_obj (SearchEntry (B "dc=com") [(B "mail", [B "a"]); (B "mail", [B "b"])])] (mkSres [] None) = mkSres [c] None /\
  get_values ascii_lower (PBytes (B "mail")) (y_entry c) = Ok [PBytes (B "b")].
Proof. eexists. split; vm_compute; reflexivity. Qed.
Print Assumptions C46_repeated_name_refuted.
(** A matched DN in a successful result (RFC 4511 allows it) makes the search fail with AssertionError. *)
Theorem C46_matched_dn_refuted : exists cs,
  search_run ascii_lower (fun _ _ => Err EValue) false [response_obj (SearchDone (mkResult 0 (B "dc=com") []))] (mkSres [] None) = mkSres cs (Some (Err EAssert)).
Proof. eexists. vm_compute. reflexivity. Qed.
Print Assumptions C46_matched_dn_refuted.
Example C46_case : Forall (search_part (fun _ _ => Err EValue)) sx_search /\ List.filter is_entry sx_search <> [].
Proof.
  split; [|discriminate]. unfold sx_search.
  constructor; [split; [do 2 eexists; split; [vm_compute; reflexivity|vm_compute; reflexivity]|]|].
  { constructor; [intros [E|[]]; discriminate|constructor; [intros []|constructor]]. }
  constructor; [exact I|]. constructor; [|constructor]. split; [do 2 eexists; split; [vm_compute; reflexivity|vm_compute; reflexivity]|constructor].
Qed.

(** ** C73 *)
(** The attribute values that make up the RDN survive all edits, and no edit journals a modification
    that removes one; for entries whose attributes are named as in the DN (as text). *)
Theorem C73_rdn_stays_partial : forall lower xs a c r up, y_dn c = r :: up -> In a r -> keys_once lower (y_entry c) -> rdn_held a (y_entry c) -> Forall (spelled lower a) xs ->
  let c' := fold_left (fun c x => fst (c_edit lower x c)) xs c in
  rdn_held a (y_entry c') /\ exists js, y_journal c' = y_journal c ++ js /\ Forall (spares a) js.
Proof. exact edits_rdn. Qed.
Print Assumptions C73_rdn_stays_partial.
(** Attempts at it are refused with CannotRemoveRDNError, and journal nothing. *)
Theorem C73_refused : forall lower a c r up, y_deleted c = false -> y_dn c = r :: up -> In a r ->
  c_edit lower (CDel (PStr (a_type a))) c = (c, Err ERdn) /\
  (forall s, c_edit lower (CSet (PStr (a_type a)) s) c = (c, Err ERdn)) /\
  forall k x, getitem lower k (y_entry c) = Ok x -> s_key x = PStr (a_type a) ->
    (exists c', c_edit lower (COn k SClear) c = (c', Err ERdn) /\ y_journal c' = y_journal c) /\
    (In (PStr (a_value a)) (s_vals x) -> exists c', c_edit lower (COn k (SRemove (PStr (a_value a)))) c = (c', Err ERdn) /\ y_journal c' = y_journal c).
Proof. exact rdn_refused. Qed.
Print Assumptions C73_refused.
(** In an entry that a search has found, the names are bytes: nothing is protected. *)
Theorem C73_bytes_refuted : exists c1 c2, search_run ascii_lower (fun _ _ => Err EValue) false (map response_obj (firstn 1 sx_search)) (mkSres [] None) = mkSres [c1] None /\
  c_edit ascii_lower (COn (PStr (S_ "cn")) (SRemove (PBytes (B "x")))) c1 = (c2, Ok tt) /\ length (y_journal c2) = 1%nat /\
  get_values ascii_lower (PStr (S_ "cn")) (y_entry c2) = Ok [] /\ exists c3, c_edit ascii_lower (CDel (PBytes (B "cn"))) c1 = (c3, Ok tt).
Proof.
  do 2 eexists. split; [vm_compute; reflexivity|]. split; [vm_compute; reflexivity|]. split; [reflexivity|]. split; [vm_compute; reflexivity|]. eexists. vm_compute. reflexivity.
Qed.
Print Assumptions C73_bytes_refuted.
Definition sx_text : cent := new_cent ascii_lower sx_dn [(PStr (S_ "cn"), [PStr (S_ "x"); PStr (S_ "y")])].
(** Spelling the name in another case gets around it. *)
Theorem C73_case_refuted : exists c1, c_edit ascii_lower (CDel (PStr (S_ "CN"))) sx_text = (c1, Ok tt) /\ e_attrs (y_entry c1) = [].
Proof. eexists. split; vm_compute; reflexivity. Qed.
Print Assumptions C73_case_refuted.
Example C73_case : (exists r up, y_dn sx_text = r :: up /\ In (mkAtv (S_ "cn") (S_ "x")) r) /\ keys_once ascii_lower (y_entry sx_text) /\ rdn_held (mkAtv (S_ "cn") (S_ "x")) (y_entry sx_text) /\
  Forall (spelled ascii_lower (mkAtv (S_ "cn") (S_ "x")))
    [COn (PStr (S_ "CN")) (SRemove (PStr (S_ "y"))); COn (PStr (S_ "cn")) (SRemove (PStr (S_ "x"))); COn (PStr (S_ "cn")) SClear; CDel (PStr (S_ "cn")); CSet (PStr (S_ "cn")) (Listed []); CSet (PStr (S_ "sn")) (Listed [])].
Proof.
  split; [do 2 eexists; split; [reflexivity|]; now left|]. split; [vm_compute; constructor; [intros []|constructor]|].
  split; [eexists; split; [left; reflexivity|]; split; [reflexivity|]; now left|].
  repeat apply Forall_cons; cbn [spelled]; try exact I; try reflexivity; [|constructor]. intros E. vm_compute in E. discriminate.
Qed.

Example C73_refused_case : y_deleted sx_text = false /\ (exists x, getitem ascii_lower (PStr (S_ "CN")) (y_entry sx_text) = Ok x /\ s_key x = PStr (S_ "cn") /\ In (PStr (S_ "x")) (s_vals x)) /\
  exists c', c_edit ascii_lower (COn (PStr (S_ "CN")) (SRemove (PStr (S_ "x")))) sx_text = (c', Err ERdn).
Proof. split; [reflexivity|]. split; [eexists; split; [vm_compute; reflexivity|]; split; [reflexivity|left; reflexivity]|eexists; vm_compute; reflexivity]. Qed.

(** ** C74 *)
Lemma sending_inv c c' l (x : list obj * res cval) r : sending c x = (c', l, r) -> c' = c /\ x = (l, r).
Proof. unfold sending. destruct x as (l' & r'). intros [= <- <- <-]. auto. Qed.
(** move sends one modifyDN request with the entry's DN, the new RDN and the rest of the new DN, that
    removes the old RDN; a successful answer gives the entry the new DN, any other leaves it. *)
Theorem C74_move : forall lower oc_first nd net c c' l r, run_call lower oc_first net (KMove nd) c = (c', l, Ok r) ->
  c' = c /\ (exists rd sup b nb sb, nd = rd :: sup /\ utf8_encode (dn_text (y_dn c)) = Ok b /\ utf8_encode (rdn_text rd) = Ok nb /\ utf8_encode (dn_text sup) = Ok sb /\
     l = [request_obj (ModifyDN b nb true (Some sb))]) /\
  forall x, r_dn x = [] ->
    exists o, move_done nd (response_obj (ModifyDNResponse x)) c = (if r_code x =? 0 then with_entry (mkEntry nd (e_attrs (y_entry c))) c else c, o) /\
      (o = Ok tt <-> r_code x = 0) /\ (r_code x <> 0 -> o = Err (ELdap (r_code x))).
Proof.
  intros lower oc_first nd net c c' l r H. apply sending_inv in H as (-> & H). split; [reflexivity|]. split; [exact (move_sends nd net c l r H)|]. intros x D. exact (move_answer nd x c D).
Qed.
Print Assumptions C74_move.
(** At ldaptor's own server, that request moves the directory's entry to the new DN, or tells why not. *)
Theorem C74_own_move_partial : forall lower io sha oc_first pw_first odd_match text depth nd net c l x s salt tag i cs r,
  c_move nd net c = (l, Ok x) -> dn_ok (y_dn c) -> (forall rd sup, nd = rd :: sup -> dn_ok sup /\ parse_rdn io (rdn_text rd) = Ok rd) ->
  lookup lower depth (v_heap s) (v_root s) (y_dn c) = Ok r -> i <> 0 -> no_critical cs ->
  exists o fin m, l = [o] /\
    handle lower io sha oc_first pw_first odd_match text depth s salt (OMessage tag (VInt i) o cs) = Ok (set_heap s (fst (move lower depth (v_heap s) r nd)), [fin]) /\
    let res := mkResult (told (snd (move lower depth (v_heap s) r nd))) [] m in
    (sane i (ModifyDNResponse res) -> sends fin i (ModifyDNResponse res)).
Proof. exact own_move. Qed.
Print Assumptions C74_own_move_partial.
(** addChild sends one add request with the new DN and all the attributes given. *)
Theorem C74_add_child : forall lower oc_first rd ats net c c' l r, run_call lower oc_first net (KAddChild rd ats) c = (c', l, Ok r) ->
  c' = c /\ exists b ats' xs, utf8_encode (dn_text (rd :: y_dn c)) = Ok b /\ Permutation ats ats' /\ Forall2 attr_sent ats' xs /\ l = [request_obj (AddReq b xs)].
Proof. intros lower oc_first rd ats net c c' l r H. apply sending_inv in H as (-> & H). split; [reflexivity|exact (add_sends rd ats net c l r H)]. Qed.
Print Assumptions C74_add_child.
(** setPassword_ExtendedOperation sends one password modify request, which any reader of RFC 3062 takes
    to ask for the new password for the entry's DN (the server side of this is C38). *)
Theorem C74_set_password : forall lower oc_first new net c c' l r, run_call lower oc_first net (KSetPassword new) c = (c', l, Ok r) ->
  c' = c /\ exists b w, utf8_encode (dn_text (y_dn c)) = Ok b /\ l = [request_obj (Extended rfc_pw_oid (Some w))] /\ asks_new_password (VBytes w) b new.
Proof. intros lower oc_first new net c c' l r H. apply sending_inv in H as (-> & H). split; [reflexivity|exact (password_sends new net c l r H)]. Qed.
Print Assumptions C74_set_password.
Definition sx_new : dn := [[mkAtv (S_ "cn") (S_ "y")]; [mkAtv (S_ "ou") (S_ "a")]; [mkAtv (S_ "dc") (S_ "com")]].
Example C74_case : c_move sx_new None sx_0 = ([request_obj (ModifyDN (B "cn=x,dc=com") (B "cn=y") true (Some (B "ou=a,dc=com")))], Ok XNone) /\ dn_ok (tl sx_new) /\
  (exists c, move_done sx_new (response_obj (ModifyDNResponse (mkResult 0 [] []))) sx_0 = (c, Ok tt) /\ y_dn c = sx_new) /\
  c_add_child [mkAtv (S_ "cn") (S_ "z")] [(PStr (S_ "sn"), [PStr (S_ "s")]); (PStr (S_ "objectClass"), [PBytes (B "person")])] None sx_0 =
    ([request_obj (AddReq (B "cn=z,cn=x,dc=com") [(B "objectClass", [B "person"]); (B "sn", [B "s"])])], Ok XNone) /\
  exists w, c_set_password (B "secret") None sx_0 = ([request_obj (Extended rfc_pw_oid (Some w))], Ok XNone).
Proof.
  split; [vm_compute; reflexivity|]. split; [|split; [eexists; split; vm_compute; reflexivity|split; [vm_compute; reflexivity|eexists; vm_compute; reflexivity]]].
  split; [|discriminate]. cbn [tl sx_new]. repeat constructor; try (vm_compute; congruence); (intros X; vm_compute in X; repeat destruct X as [X|X]; congruence).
Qed.
(** What delete, setPassword_ExtendedOperation and addChild give: success when the server's code is 0, that
    code's exception otherwise; addChild gives an entry with the child's DN. *)
Theorem C74_answers : forall lower x, r_dn x = [] ->
  (delete_done (response_obj (DeleteResponse x)) = if r_code x =? 0 then Ok tt else Err (ELdap (r_code x))) /\
  (forall nm v, set_password_done (response_obj (ExtendedResponse x nm v)) = if r_code x =? 0 then Ok tt else Err (ELdap (r_code x))) /\
  (forall rd c, add_done lower rd (response_obj (AddResponse x)) c = if r_code x =? 0 then Ok (new_cent lower (rd :: y_dn c) []) else Err (ELdap (r_code x))).
Proof. exact plain_answer. Qed.
Print Assumptions C74_answers.
(** setPassword_Samba sends one modify request: what was journaled, then both hashes, each replacing
    the attribute of its style. *)
Theorem C74_samba : forall lower oc_first (old : bool) nt lm net c c' l r, run_call lower oc_first net (KSamba old nt lm) c = (c', l, Ok r) ->
  exists b ms nb lb, utf8_encode (dn_text (y_dn c)) = Ok b /\ to_bytes nt = Ok nb /\ to_bytes lm = Ok lb /\ length ms = length (y_journal c) /\
    l = [request_obj (Modify b (ms ++ [mkMod 2 (if old then B "ntPassword" else B "sambaNTPassword") [nb]; mkMod 2 (if old then B "lmPassword" else B "sambaLMPassword") [lb]]))] /\
    (forall m, In m (y_journal c) -> exists o, l = [o] /\ carries o m).
Proof. intros lower oc_first. exact (samba_sends lower). Qed.
Print Assumptions C74_samba.
Example C74_samba_case : exists c', c_samba ascii_lower false (PStr (S_ "N")) (PStr (S_ "L")) None sx_0 =
  (c', [request_obj (Modify (B "cn=x,dc=com") [mkMod 2 (B "sambaNTPassword") [B "N"]; mkMod 2 (B "sambaLMPassword") [B "L"]])], Ok XNone).
Proof. eexists. vm_compute. reflexivity. Qed.

(** search sends one search request with the entry's DN as the base and everything the caller gave; with
    no attributes named it asks for none ("1.1"). *)
Theorem C74_search : forall lower oc_first f ats sc de si ti (ty : bool) net c c' l r,
  run_call lower oc_first net (KSearch (Ok (filter_obj f)) ats sc de si ti (if ty then 1 else 0)) c = (c', l, Ok r) ->
  c' = c /\ exists b, utf8_encode (dn_text (y_dn c)) = Ok b /\ l = [request_obj (Search b sc de si ti ty f (match ats with Some x => x | None => [B "1.1"] end))].
Proof.
  intros lower oc_first f ats sc de si ti ty net c c' l r H. apply sending_inv in H as (-> & H). split; [reflexivity|].
  unfold c_search in H. destruct (check c); cbn [bind] in H; [|discriminate]. unfold text_pv in H. destruct (utf8_encode (dn_text (y_dn c))) as [b|]; cbn [bind] in H; [|discriminate].
  unfold send in H. destruct net; [discriminate|]. exists b. split; [reflexivity|]. injection H as <- _. destruct ty; reflexivity.
Qed.
Print Assumptions C74_search.
(** lookup sends one search for the very entry with the DN given, asking for no attributes; delete sends
    one delete request for the entry's DN, and no use can be made of the entry after it; bind sends one
    version 3 simple bind with the entry's DN and the password given. *)
Theorem C74_lookup_delete_bind : forall lower oc_first net c c' l r,
  (forall d, run_call lower oc_first net (KLookup d) c = (c', l, Ok r) ->
     c' = c /\ exists b, utf8_encode (dn_text d) = Ok b /\ l = [request_obj (Search b 0 0 0 0 false (FPresent (B "objectClass")) [B "1.1"])]) /\
  (run_call lower oc_first net KDelete c = (c', l, Ok r) ->
     y_deleted c' = true /\ exists b, utf8_encode (dn_text (y_dn c)) = Ok b /\ l = [request_obj (Delete b)]) /\
  (forall pw, run_call lower oc_first net (KBind pw) c = (c', l, Ok r) ->
     c' = c /\ exists b, utf8_encode (dn_text (y_dn c)) = Ok b /\ l = [request_obj (Bind 3 b (Simple pw))]).
Proof.
  intros lower oc_first net c c' l r. split; [|split].
  - intros d H. apply sending_inv in H as (-> & H). split; [reflexivity|]. unfold c_lookup in H. apply fetch_sends in H as (_ & b & ns & E & F & ->). exists b. split; [exact E|].
    inversion F as [|x y l1 l2 X F' E1 E2]; subst. inversion F'; subst. change (to_bytes (PStr (S_ "1.1"))) with (Ok (B "1.1")) in X. apply Ok_inj in X. subst. reflexivity.
  - cbn [run_call]. unfold c_delete. destruct (check c); [|discriminate]. destruct (utf8_encode (dn_text (y_dn c))) as [b|]; [|discriminate]. destruct net; cbn [send]; [discriminate|].
    intros H. injection H as <- <- _. split; [reflexivity|]. exists b. split; reflexivity.
  - intros pw H. apply sending_inv in H as (-> & H). split; [reflexivity|]. unfold c_bind, text_pv in H. destruct (utf8_encode (dn_text (y_dn c))) as [b|]; cbn [bind] in H; [|discriminate].
    destruct net; cbn [send] in H; [discriminate|]. injection H as <- _. exists b. split; reflexivity.
Qed.
Print Assumptions C74_lookup_delete_bind.
Example C74_search_case : run_call ascii_lower true None (KSearch (Ok (filter_obj (FPresent (B "cn")))) None 2 3 10 20 1) sx_0 =
    (sx_0, [request_obj (Search (B "cn=x,dc=com") 2 3 10 20 true (FPresent (B "cn")) [B "1.1"])], Ok XNone) /\
  run_call ascii_lower true None (KLookup sx_dn) sx_0 = (sx_0, [request_obj (Search (B "cn=x,dc=com") 0 0 0 0 false (FPresent (B "objectClass")) [B "1.1"])], Ok XNone) /\
  (exists c', run_call ascii_lower true None KDelete sx_0 = (c', [request_obj (Delete (B "cn=x,dc=com"))], Ok XNone)) /\
  run_call ascii_lower true None (KBind (B "pw")) sx_0 = (sx_0, [request_obj (Bind 3 (B "cn=x,dc=com") (Simple (B "pw")))], Ok XNone).
Proof. split; [vm_compute; reflexivity|]. split; [vm_compute; reflexivity|]. split; [eexists; vm_compute; reflexivity|vm_compute; reflexivity]. Qed.

(** ** C75 *)
(** fetch sends one search for the entry itself with the names given. *)
Theorem C75_fetch_sends : forall lower oc_first attrs net c c' l r, run_call lower oc_first net (KFetch attrs) c = (c', l, Ok r) ->
  c' = c /\ y_journal c = [] /\ exists b ns, utf8_encode (dn_text (y_dn c)) = Ok b /\ Forall2 (fun n x => to_bytes n = Ok x) attrs ns /\
    l = [request_obj (Search b 0 0 0 0 false (FPresent (B "objectClass")) ns)].
Proof. intros lower oc_first attrs net c c' l r H. apply sending_inv in H as (-> & H). split; [reflexivity|exact (fetch_sends attrs net c l r H)]. Qed.
Print Assumptions C75_fetch_sends.
(** When the search finds one entry, a fetch of everything makes the entry, and the client's copy of the
    server's data, exactly what the server sent. A fetch of names does so for the attributes asked for
    and found, and leaves all others.
    Missing: attributes asked for that the server no longer has (refuted below), names of the other type
    than the entry's (refuted below), values that are not UTF-8. *)
Theorem C75_fetch_partial : forall lower io oc_first, (forall s, ascii s -> lower s = ascii_lower s) ->
  forall lax rs dn ats res extra, Forall (search_part io) rs -> List.filter is_entry rs = [SearchEntry dn ats] -> all_text ats -> r_code res = 0 -> r_dn res = [] ->
  exists o, search_run lower io lax (map response_obj rs ++ response_obj (SearchDone res) :: extra) (mkSres [] None) = mkSres [o] (Some (Ok tt)) /\
  forall c, y_journal c = [] -> y_deleted c = false ->
   (forall kt vt, ent_ok lower kt vt (y_remote c) ->
      exists c', fetch_done lower oc_first [o] [] c = (c', Ok tt) /\ y_dn c' = y_dn c /\ y_journal c' = [] /\ y_deleted c' = false /\ same_map (octs (y_entry c')) (octs (y_remote c')) /\
        same_map (octs (y_entry c')) (sent ats)) /\
   (forall kt attrs, ent_ok lower kt false (y_remote c) -> Forall (name kt) attrs -> attrs <> [] ->
      exists c', fetch_done lower oc_first [o] attrs c = (c', Ok tt) /\ y_dn c' = y_dn c /\ y_journal c' = [] /\ y_deleted c' = false /\ same_map (octs (y_entry c')) (octs (y_remote c')) /\
        (forall k, named attrs k -> sent_name ats k -> forall v, octs (y_entry c') k v <-> sent ats k v) /\
        (forall k, ~ (named attrs k /\ sent_name ats k) -> forall v, octs (y_entry c') k v <-> octs (y_remote c) k v)).
Proof. exact fetch_result. Qed.
Print Assumptions C75_fetch_partial.
(** Whatever is found besides one entry: nothing changes and the caller is told. *)
Theorem C75_fetch_none : forall lower oc_first found attrs c, length found <> 1%nat -> fetch_done lower oc_first found attrs c = (c, Err ENoDn).
Proof. intros lower oc_first [|o [|o' l]] attrs c H; [reflexivity|destruct (H eq_refl)|reflexivity]. Qed.
Print Assumptions C75_fetch_none.
Definition sx_found (ats : list (bytes * list bytes)) : cent := new_cent ascii_lower sx_dn (map (fun kv => (PBytes (fst kv), map PBytes (snd kv))) ats).
(** fetch of an attribute that has been deleted on the server: the old value stays, and counts as the
    server's. *)
Theorem C75_stale_refuted : exists c', fetch_done ascii_lower true [sx_found []] [PBytes (B "mail")] sx_0 = (c', Ok tt) /\
  octs (y_entry c') (B "mail") (B "a") /\ octs (y_remote c') (B "mail") (B "a").
Proof.
  eexists. split; [vm_compute; reflexivity|].
  split; (exists (mkSet (PBytes (B "mail")) [PBytes (B "a"); PBytes (B "b")]), (B "mail"); split; [vm_compute; auto|split; [reflexivity|split; [vm_compute; reflexivity|]]]);
    exists (PBytes (B "a")); (split; [left; reflexivity|reflexivity]).
Qed.
Print Assumptions C75_stale_refuted.
(** fetch with the name as text of an entry whose names are octets: the server now has mail=c only, the
    entry has both the old and the new values. *)
Theorem C75_text_name_refuted : exists c', fetch_done ascii_lower true [sx_found [(B "mail", [B "c"])]] [PStr (S_ "mail")] sx_0 = (c', Ok tt) /\
  octs (y_entry c') (B "mail") (B "a") /\ octs (y_entry c') (B "mail") (B "c").
Proof.
  eexists. split; [vm_compute; reflexivity|]. split.
  - exists (mkSet (PBytes (B "mail")) [PBytes (B "a"); PBytes (B "b")]), (B "mail"). split; [vm_compute; auto|]. split; [reflexivity|]. split; [vm_compute; reflexivity|].
    exists (PBytes (B "a")). split; [left; reflexivity|reflexivity].
  - exists (mkSet (PStr (S_ "mail")) [PBytes (B "c")]), (B "mail"). split; [vm_compute; auto|]. split; [reflexivity|]. split; [vm_compute; reflexivity|].
    exists (PBytes (B "c")). split; [left; reflexivity|reflexivity].
Qed.
Print Assumptions C75_text_name_refuted.
Example C75_case : Forall (search_part (fun _ _ => Err EValue)) [SearchEntry (B "cn=x,dc=com") [(B "mail", [B "c"])]] /\ all_text [(B "mail", [B "c"])] /\
  y_journal sx_0 = [] /\ ent_ok ascii_lower false false (y_remote sx_0) /\ Forall (name false) [PBytes (B "Mail"); PBytes (B "sn")] /\
  exists c', fetch_done ascii_lower true [sx_found [(B "mail", [B "c"])]] [PBytes (B "Mail"); PBytes (B "sn")] sx_0 = (c', Ok tt) /\
    getitem ascii_lower (PBytes (B "mail")) (y_entry c') = Ok (mkSet (PBytes (B "Mail")) [PBytes (B "c")]) /\ length (e_attrs (y_entry c')) = 3%nat.
Proof.
  split; [apply Forall_cons; [split; [exists (S_ "cn=x,dc=com"), sx_dn; split; vm_compute; reflexivity|]|constructor]|].
  { constructor; [intros []|constructor]. }
  split. { intros k vs [E|[]]. injection E as <- <-. split; [eexists; vm_compute; reflexivity|]. intros v [<-|[]]. eexists; vm_compute; reflexivity. }
  split; [reflexivity|]. split; [exact (new_entry_ent ascii_lower false false sx_dn sx_items sx_typed)|].
  split; [apply Forall_cons; [split; [eexists; vm_compute; reflexivity|discriminate]|apply Forall_cons; [split; [eexists; vm_compute; reflexivity|discriminate]|constructor]]|].
  eexists. split; [vm_compute; reflexivity|]. split; vm_compute; reflexivity.
Qed.
