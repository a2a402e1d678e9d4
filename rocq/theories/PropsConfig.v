(** C83: the server that options and configuration files name for a DN; C87: the base DNs they name. *)
From Verif Require Import Base BaseFacts Utf8Model DnModel DnSpec DnProofs FilterTextModel IdentityModel UtilModel UtilSpec UtilProofs ConfigModel ConfigSpec ConfigProofs.

(** C83. The tools connect for a DN to the server that the last --service-location for its nearest
    ancestor-or-self names, or else the last section of the configuration file for it; the nearest
    counts first, and the part not given comes from the SRV record. They connect at all exactly when
    all options and sections can be read. Two DNs are the same here if the dict takes them for one key
    ([one_key]). The empty RDN on its own has an empty text, which ends the search for ancestors. *)
Theorem C83_server_partial : forall (io : Z -> Z -> res Z) (lower : str -> str) (hs : str -> Z) (hb : bytes -> Z) (isspace : Z -> bool)
    (int_text : str -> option Z) (values : list str) (file : list (str * list (str * str))) (d : dn) (srv : str * Z) (host : str) (port : portv),
  (forall k, skipn k d <> [[]]) ->
  (server_for io lower hs hb isspace int_text values file d srv = Ok (host, port) <->
   exists (ls lf : list (dn * location)) (ov : option location),
     Forall2 (option_says (fun t d => parse_dn io t = Ok d)) values ls /\
     file_says lower isspace (cfg_get lower) (fun t d => parse_dn io t = Ok d) file lf /\
     nearest (fun x => last_for (one_key lower hs x) (lf ++ ls)) d ov /\
     host = match ov with Some (Some h, _) => h | _ => fst srv end /\
     port = match ov with
            | Some (_, Some p) => match int_text p with Some n => PNum n | None => PText p end
            | _ => PNum (snd srv)
            end).
Proof.
  intros io lower hs hb isspace it values file d srv host port N. rewrite (server_spec io lower hs hb isspace it values file d srv (host, port) N).
  split; intros (ls & lf & ov & F & G & Q & E); exists ls, lf, ov; (split; [exact F|]; split; [exact G|]; split; [exact Q|]).
  - unfold pick in E. destruct ov as [([h|] & [p|])|]; injection E as -> ->; now split.
  - destruct E as (-> & ->). unfold pick. now destruct ov as [([h|] & [p|])|].
Qed.
Print Assumptions C83_server_partial.
(** Where no two different texts have the same hash, that is the same text, for DNs that can be read
    back the same DN. *)
Theorem C83_same_text_partial : forall (lower : str -> str) (hs : str -> Z) (d k : dn),
  (hs (dn_text d) = hs (dn_text k) -> dn_text d = dn_text k) -> dn_ok d -> dn_ok k ->
  (one_key lower hs d k = true <-> d = k).
Proof.
  intros lower hs d k H D K. unfold one_key. rewrite andb_true_iff, Z.eqb_eq. split.
  - intros (E & _). apply dn_text_inj; auto.
  - intros ->. split; [reflexivity|]. exact (proj1 (dn_eqb_equiv lower) k).
Qed.
Print Assumptions C83_same_text_partial.
Definition c83_space (c : Z) : bool := (c =? 32) || ((9 <=? c) && (c <=? 13)).
Definition c83_com : dn := [[mkAtv (S_ "dc") (S_ "com")]].
Definition c83_COM : dn := [[mkAtv (S_ "DC") (S_ "com")]].
(** An option for an equal DN in other case does not replace what the file says. *)
Theorem C83_case_refuted : exists (values : list str) (file : list (str * list (str * str))) (d k : dn),
  dn_eqb ascii_lower d k = true /\
  forall io hs hb it srv, hs (dn_text d) <> hs (dn_text k) ->
    Forall2 (option_says (fun t d => parse_dn io t = Ok d)) values [(k, (Some (S_ "new"), None))] /\
    server_for io ascii_lower hs hb c83_space it values file d srv = Ok (S_ "old", PNum (snd srv)).
Proof.
  exists [S_ "DC=com:new"], [(S_ "service-location dc=com", [(S_ "host", S_ "old")])], c83_com, c83_COM.
  split; [vm_compute; reflexivity|]. intros io hs hb it srv N.
  assert (F : Forall2 (option_says (fun t d => parse_dn io t = Ok d)) [S_ "DC=com:new"] [(c83_COM, (Some (S_ "new"), None))]).
  { constructor; [|constructor].
    apply (says_host (fun t d => parse_dn io t = Ok d) (S_ "DC=com") (S_ "new") c83_COM); [vm_compute; intuition discriminate..|vm_compute; reflexivity]. }
  split; [exact F|]. apply C83_server_partial; [intros [|[|k]]; discriminate|].
  exists [(c83_COM, (Some (S_ "new"), None))], [(c83_com, (Some (S_ "old"), None))], (Some (Some (S_ "old"), None)). split; [exact F|]. split.
  - apply (file_here ascii_lower c83_space (cfg_get ascii_lower) (fun t d => parse_dn io t = Ok d) _ _ [] [] (S_ "dc=com") (S_ "dc=com") c83_com).
    + vm_compute. reflexivity.
    + exact (strip_trimmed c83_space (S_ "dc=com")).
    + vm_compute. reflexivity.
    + vm_compute. reflexivity.
    + vm_compute. reflexivity.
    + constructor.
  - split; [|now split]. exists 0%nat. split; [apply Nat.le_0_l|]. split; [|intros j L; inversion L]. cbn [skipn app last_for].
    unfold one_key. apply Z.eqb_neq in N. rewrite N, Z.eqb_refl. cbn [andb]. now replace (dn_eqb ascii_lower c83_com c83_com) with true by (vm_compute; reflexivity).
Qed.
Print Assumptions C83_case_refuted.

(** A DN with a colon in it cannot be given as it is written: the option is for another DN. *)
Theorem C83_colon_refuted : exists (d k : dn) (host : str), dn_ok d /\ no_colon host /\
  forall io lower hs hb, opt_location io lower hs hb [] (dn_text d ++ S_ ":" ++ host) = Ok [(KDn k, (Some (S_ "b,dc=com"), Some host))] /\
    dn_eqb lower k d = false.
Proof.
  exists [[mkAtv (S_ "cn") (S_ "a:b")]; [mkAtv (S_ "dc") (S_ "com")]], [[mkAtv (S_ "cn") (S_ "a")]], (S_ "host").
  split; [|split; [vm_compute; intuition discriminate|]].
  - split; [|discriminate]. repeat constructor; vm_compute; intuition (try discriminate; try congruence).
  - intros io lower hs hb. split; [vm_compute; reflexivity|]. unfold dn_eqb. cbn [list_eqb]. apply andb_false_r.
Qed.
Print Assumptions C83_colon_refuted.
(** Nor can an IPv6 address: its first group becomes the host, the rest a port that is no number. *)
Theorem C83_ipv6_refuted : exists (value address : str), value = dn_text c83_com ++ S_ ":" ++ address /\
  forall io lower hs hb it srv, it (S_ "db8::1") = None ->
  exists h p, server_for io lower hs hb c83_space it [value] [] c83_com srv = Ok (h, PText p) /\ h <> address.
Proof.
  exists (S_ "dc=com:2001:db8::1"), (S_ "2001:db8::1"). split; [vm_compute; reflexivity|]. intros io lower hs hb it srv E.
  exists (S_ "2001"), (S_ "db8::1"). split; [|vm_compute; discriminate].
  apply C83_server_partial; [intros [|[|k]]; discriminate|]. exists [(c83_com, (Some (S_ "2001"), Some (S_ "db8::1")))], [], (Some (Some (S_ "2001"), Some (S_ "db8::1"))).
  split. { constructor; [|constructor].
    apply (says_port (fun t d => parse_dn io t = Ok d) (S_ "dc=com") (S_ "2001") (S_ "db8::1") c83_com); [vm_compute; intuition discriminate..|vm_compute; reflexivity]. }
  split; [constructor|]. split; [|rewrite E; now split]. exists 0%nat. split; [apply Nat.le_0_l|]. split; [|intros j L; inversion L]. cbn [skipn app last_for].
  now rewrite ok_refl.
Qed.
Print Assumptions C83_ipv6_refuted.
(** A host left empty in an option is connected to as the host of that name; left empty in a file, it
    is taken from the SRV record. *)
Theorem C83_empty_host_refuted : forall io lower hs hb it srv,
  lower (S_ "service-location dc=com") = S_ "service-location dc=com" -> it (S_ "389") = Some 389 ->
  server_for io lower hs hb c83_space it [S_ "dc=com::389"] [] c83_com srv = Ok ([], PNum 389) /\
  server_for io lower hs hb c83_space it [] [(S_ "service-location dc=com", [(S_ "host", []); (S_ "port", S_ "389")])] c83_com srv = Ok (fst srv, PNum 389).
Proof.
  intros io lower hs hb it srv L E. split; (apply C83_server_partial; [intros [|[|k]]; discriminate|]).
  - exists [(c83_com, (Some [], Some (S_ "389")))], [], (Some (Some [], Some (S_ "389"))). split.
    { constructor; [|constructor].
      apply (says_port (fun t d => parse_dn io t = Ok d) (S_ "dc=com") [] (S_ "389") c83_com); [vm_compute; intuition discriminate..|vm_compute; reflexivity]. }
    split; [constructor|]. split; [|rewrite E; now split]. exists 0%nat. split; [apply Nat.le_0_l|]. split; [|intros j Q; inversion Q]. cbn [skipn app last_for]. now rewrite ok_refl.
  - exists [], [(c83_com, (None, Some (S_ "389")))], (Some (None, Some (S_ "389"))). split; [constructor|]. split.
    { apply (file_here lower c83_space (cfg_get lower) (fun t d => parse_dn io t = Ok d) _ _ [] [] (S_ "dc=com") (S_ "dc=com") c83_com).
      - exact L.
      - exact (strip_trimmed c83_space (S_ "dc=com")).
      - vm_compute. reflexivity.
      - vm_compute. reflexivity.
      - vm_compute. reflexivity.
      - constructor. }
    split; [|rewrite E; now split]. exists 0%nat. split; [apply Nat.le_0_l|]. split; [|intros j Q; inversion Q]. cbn [skipn app last_for]. now rewrite ok_refl.
Qed.
Print Assumptions C83_empty_host_refuted.
(** An option that cannot be read is refused: with a usage error when it has no colon or a part of the
    DN has no "="; else with the exception of reading the DN. *)
Theorem C83_usage_partial : forall io lower hs hb (o : list (okey * location)) (v : str) (x : exn),
  opt_location io lower hs hb o v = Err x ->
  (x = EUsage /\ no_colon v) \/
  exists base rest e, v = base ++ S_ ":" ++ rest /\ no_colon base /\ parse_dn io base = Err e /\ ((e = EInvalidRDN /\ x = EUsage) \/ (e <> EInvalidRDN /\ x = e)).
Proof.
  intros io lower hs hb o v x H. unfold opt_location in H. destruct (cut 58 v) as [(base & rest)|] eqn:C.
  - apply cut_spec in C as (-> & N). right. destruct (parse_dn io base) as [d|e] eqn:P; [discriminate|]. exists base, rest, e.
    split; [reflexivity|]. split; [exact N|]. split; [exact P|]. clear P.
    destruct e; try (right; split; [discriminate|congruence]). destruct (Z.eq_dec tag 1) as [->|M]; [left; split; [reflexivity|congruence]|].
    right. split; [unfold EInvalidRDN; congruence|]. destruct tag as [|[p|p|]|p]; congruence.
  - apply cut_none in C. left. split; [congruence|exact C].
Qed.
Print Assumptions C83_usage_partial.
(** So a backslash at the end of the DN is an IndexError, not a usage error. *)
Theorem C83_usage_refuted : exists v, forall io lower hs hb, opt_location io lower hs hb [] v = Err EIndex.
Proof. exists (S_ "dc=com\:host"). intros. vm_compute. reflexivity. Qed.
Print Assumptions C83_usage_refuted.

(** copy() gives a configuration with what it is told, and all else as it was. *)
Theorem C83_copy : forall io lower hs hb (V : Type) b0 l0 i0 s0 (c : config V) base over ibase isearch,
  new_config io lower hs hb b0 l0 i0 s0 = Ok c ->
  copy io lower hs hb c None None None None = Ok c /\
  forall c', copy io lower hs hb c base over ibase isearch = Ok c' ->
    match base with None => c_base c' = c_base c | Some b => opt_dn io b = Ok (c_base c') end /\
    match over with None => c_over c' = c_over c | Some l => own_overrides io lower hs hb (match l with Some l => l | None => [] end) [] = Ok (c_over c') end /\
    match ibase with None => c_ibase c' = c_ibase c | Some i => opt_dn io i = Ok (c_ibase c') end /\
    match isearch with None => c_isearch c' = c_isearch c | Some s => c_isearch c' = s end.
Proof.
  intros io lower hs hb V b0 l0 i0 s0 c base over ibase isearch H. apply new_wf in H as W. split.
  - rewrite (copy_spec io lower hs hb c None None None None W). cbn. now destruct c.
  - intros c' E. rewrite (copy_spec io lower hs hb c base over ibase isearch W) in E. unfold new_config in E.
    destruct (opt_dn io match base with Some x => x | None => None end) as [b'|] eqn:E1; [|discriminate]. cbn [bind] in E.
    match type of E with context [own_overrides io lower hs hb ?m []] => destruct (own_overrides io lower hs hb m []) as [l'|] eqn:E2; [|discriminate] end. cbn [bind] in E.
    destruct (opt_dn io match ibase with Some x => x | None => None end) as [i'|] eqn:E3; [|discriminate]. cbn [bind c_base c_over c_ibase c_isearch] in E.
    injection E as <-. cbn [c_base c_over c_ibase c_isearch].
    destruct base, over, ibase, isearch; repeat split; assumption.
Qed.
Print Assumptions C83_copy.

(** The scopes that --scope takes *)
Theorem C83_scope : forall (s : str) (z : Z), scope_option s = Ok z <->
  In (s, z) [(S_ "base", 0); (S_ "baseObject", 0); (S_ "single", 1); (S_ "singleLevel", 1); (S_ "sub", 2); (S_ "subtree", 2); (S_ "wholeSubtree", 2)].
Proof.
  intros s z. unfold scope_option, synonyms, scopes. cbn [assoc assocz In]. split.
  - repeat match goal with |- context [str_eqb s ?k] => destruct (str_eqb s k) eqn:?; [match goal with H : str_eqb s k = true |- _ => apply str_eqb_eq in H; subst s end; vm_compute; intuition congruence|] end.
    discriminate.
  - repeat (intros [[= <- <-]|H]; [vm_compute; reflexivity|revert H]). intros [].
Qed.
Print Assumptions C83_scope.
(** "one" is not among them, though the help text names "base, one, sub". *)
Theorem C83_scope_one_refuted : exists s, In s [S_ "base"; S_ "one"; S_ "sub"] /\ scope_option s = Err EUsage.
Proof. exists (S_ "one"). split; [right; now left|vm_compute; reflexivity]. Qed.
Print Assumptions C83_scope_one_refuted.

Definition c83_dn : dn := [[mkAtv (S_ "cn") (S_ "x")]; [mkAtv (S_ "ou") (S_ "p")]; [mkAtv (S_ "dc") (S_ "com")]].
Definition c83_int (s : str) : option Z := if str_eqb s (S_ "1389") then Some 1389 else None.
Example C83_case : (forall k, skipn k c83_dn <> [[]]) /\
  server_for (fun _ _ => Err EValue) ascii_lower zlen zlen c83_space c83_int
    [S_ "dc=com:a"; S_ "ou=q,dc=com:b"; S_ "dc=com:c:1389"] [(S_ "Service-Location  dc=com ", [(S_ "host", S_ "d")]); (S_ "ldap", [(S_ "base", S_ "dc=com")])] c83_dn (S_ "srv", 389)
  = Ok (S_ "c", PNum 1389) /\
  server_for (fun _ _ => Err EValue) ascii_lower zlen zlen c83_space c83_int
    [S_ "dc=com:a"] [(S_ "Service-Location  ou=p,dc=com ", [(S_ "port", S_ "1389")])] c83_dn (S_ "srv", 389)
  = Ok (S_ "srv", PNum 1389) /\ one_key ascii_lower zlen c83_dn c83_dn = true.
Proof. split; [intros [|[|[|[|k]]]]; discriminate|]. split; [vm_compute; reflexivity|]. split; vm_compute; reflexivity. Qed.

(** ** C87 *)
(** The base that was given when the configuration was made is the base, as a DN; without one it is the
    text that the file has as "base" in its section "ldap", and without that there is none, which is
    reported as such. Any text can be written in a file, with "%%" for "%". *)
Theorem C87_base_partial : forall io lower hs hb (V : Type) base over ibase isearch (c : config V) file,
  new_config io lower hs hb base over ibase isearch = Ok c -> NoDup (map fst file) ->
  match base with
  | Some x => exists d, to_dn io x = Ok d /\ get_base lower file c = Ok (ADn d)
  | None =>
      (forall t, option_in file (S_ "ldap") (S_ "base") (doubled t) -> get_base lower file c = Ok (AText t)) /\
      (no_option file (S_ "ldap") (S_ "base") -> get_base lower file c = Err EMissingBase)
  end.
Proof.
  intros io lower hs hb V base over ibase isearch c file H N. destruct (base_spec lower file c N) as (A & Bc). unfold new_config in H.
  destruct base as [x|]; cbn [opt_dn] in H.
  - destruct (to_dn io x) as [d|] eqn:E; [|discriminate]. exists d. split; [reflexivity|]. apply A. cbn [bind] in H. apply bind_ok in H as (o & _ & H). apply bind_ok in H as (i & _ & H).
    apply Ok_inj in H. now subst c.
  - apply Bc. cbn [bind] in H. apply bind_ok in H as (o & _ & H). apply bind_ok in H as (i & _ & H). apply Ok_inj in H. now subst c.
Qed.
Print Assumptions C87_base_partial.
(** The base for identities: likewise, with "identity-base" in the section "authentication"; without
    either it is the base. *)
Theorem C87_identity_base_partial : forall io lower hs hb (V : Type) base over ibase isearch (c : config V) file,
  new_config io lower hs hb base over ibase isearch = Ok c -> NoDup (map fst file) ->
  match ibase with
  | Some x => exists d, to_dn io x = Ok d /\ get_ibase lower file c = Ok (ADn d)
  | None =>
      (forall t, option_in file (S_ "authentication") (S_ "identity-base") (doubled t) -> get_ibase lower file c = Ok (AText t)) /\
      (no_option file (S_ "authentication") (S_ "identity-base") -> get_ibase lower file c = get_base lower file c)
  end.
Proof.
  intros io lower hs hb V base over ibase isearch c file H N. destruct (ibase_spec lower file c N) as (A & Bc). unfold new_config in H.
  apply bind_ok in H as (b & _ & H). apply bind_ok in H as (o & _ & H). destruct ibase as [x|]; cbn [opt_dn] in H.
  - destruct (to_dn io x) as [d|] eqn:E; [|discriminate]. exists d. split; [reflexivity|]. apply A. apply Ok_inj in H. now subst c.
  - apply Bc. apply Ok_inj in H. now subst c.
Qed.
Print Assumptions C87_identity_base_partial.
(** A DN written as it is may not be readable as an option: one percent sign is an error of its own. *)
Theorem C87_percent_refuted : exists (d : dn) (file : list (str * list (str * str))), dn_ok d /\
  option_in file (S_ "ldap") (S_ "base") (dn_text d) /\
  forall lower (V : Type) (c : config V), c_base c = None -> get_base lower file c = Err EInterp.
Proof.
  exists [[mkAtv (S_ "o") (S_ "100%")]], [(S_ "ldap", [(S_ "base", S_ "o=100%")])]. split.
  - split; [|discriminate]. repeat constructor; vm_compute; intuition (try discriminate; try congruence).
  - split; [exists [(S_ "base", S_ "o=100%")], [], []; split; [now left|]; split; [reflexivity|intros []]|].
    intros lower V c E. unfold get_base. rewrite E. vm_compute. reflexivity.
Qed.
Print Assumptions C87_percent_refuted.
(** The text of a file is not read as a DN here, so one that is no DN is given out as well. *)
Theorem C87_unread_refuted : exists (t : str) (file : list (str * list (str * str))), (forall io d, parse_dn io t <> Ok d) /\
  forall lower (V : Type) (c : config V), c_base c = None -> get_base lower file c = Ok (AText t).
Proof.
  exists (S_ "example.com"), [(S_ "ldap", [(S_ "base", S_ "example.com")])]. split; [intros io d; vm_compute; discriminate|].
  intros lower V c E. unfold get_base. rewrite E. vm_compute. reflexivity.
Qed.
Print Assumptions C87_unread_refuted.
Example C87_case :
  let file := [(S_ "ldap", [(S_ "base", S_ "o=100%%"); (S_ "base", S_ "dc=default")]); (S_ "authentication", [(S_ "identity-base", S_ "ou=people")])] in
  option_in file (S_ "ldap") (S_ "base") (doubled (S_ "o=100%")) /\ NoDup (map fst file) /\
  (do c <- new_config (fun _ _ => Err EValue) ascii_lower zlen zlen None (@None (list (dnarg * location))) None None; get_base ascii_lower file c) = Ok (AText (S_ "o=100%")) /\
  (do c <- new_config (fun _ _ => Err EValue) ascii_lower zlen zlen (Some (AText (S_ "dc=com"))) (@None (list (dnarg * location))) None None; get_base ascii_lower file c) = Ok (ADn c83_com) /\
  (do c <- new_config (fun _ _ => Err EValue) ascii_lower zlen zlen None (@None (list (dnarg * location))) None None; get_ibase ascii_lower file c) = Ok (AText (S_ "ou=people")) /\
  no_option (tl file) (S_ "ldap") (S_ "base").
Proof.
  cbv zeta. split. { exists [(S_ "base", S_ "o=100%%"); (S_ "base", S_ "dc=default")], [], [(S_ "base", S_ "dc=default")]. split; [now left|]. split; [vm_compute; reflexivity|intros []]. }
  split. { repeat constructor; vm_compute; intuition discriminate. }
  split; [vm_compute; reflexivity|]. split; [vm_compute; reflexivity|]. split; [vm_compute; reflexivity|].
  intros sec [[= <-]|[]].
Qed.
