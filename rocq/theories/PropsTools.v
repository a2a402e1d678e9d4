(** C88: generating passwords; C89: the line of an account; C90: networks. *)
From Verif Require Import Base BaseFacts Utf8Model DnModel DnSpec EntryModel UtilModel UtilSpec UtilProofs FetchSchemaProofs ToolsModel ToolsSpec ToolsProofs.

(** ** C88 *)
(** When the process writes text, in whatever pieces and order: [n] lines that are not empty are the
    [n] passwords; anything on the error output, no output, or another number of lines is a failure.
    The Deferred has its one result when the process has ended. *)
Theorem C88_text_partial : forall n evs o e, 0 < n -> on_outputs evs o e ->
  exists g, generate n evs = Ok ([S_ "pwgen"; S_ "-cn1"; S_ "-N"; dec n], g) /\
  (e <> [] -> g_fired g = Some (Err EPwgen) /\ g_raised g = []) /\
  (e = [] -> o = [] -> g_fired g = Some (Err EPwgen) /\ g_raised g = []) /\
  (e = [] -> o <> [] -> forall ls, text_lines o ls ->
     (Z.of_nat (length ls) = n -> g_fired g = Some (Ok ls) /\ g_raised g = []) /\
     (Z.of_nat (length ls) <> n -> g_fired g = Some (Err EPwgen) /\ g_raised g = [EAlreadyCalled])).
Proof. exact generate_text. Qed.
Print Assumptions C88_text_partial.
(** Every text has such lines, and only one list of them. *)
Theorem C88_lines : forall s, exists ls, text_lines s ls /\ forall ls', text_lines s ls' -> ls' = ls.
Proof.
  intros s. destruct (lines_total s) as (ls & H). exists ls. split; [exact H|]. intros ls' H'. apply lines_of in H, H'. congruence.
Qed.
Print Assumptions C88_lines.
(** No process is started for a number that is not positive. *)
Theorem C88_count : forall n evs, n <= 0 -> generate n evs = Err EAssert.
Proof. intros n evs H. unfold generate. destruct (Z.ltb_spec 0 n); [lia|reflexivity]. Qed.
Print Assumptions C88_count.
(** Twisted hands the output over as octets: then each piece raises, and the result is a failure
    whatever the process has written. *)
Theorem C88_octets_refuted : forall n evs, 0 < n -> (forall ev, In ev evs -> exists b, ev = GOut (PBytes b) \/ ev = GErr (PBytes b)) ->
  exists a g, generate n evs = Ok (a, g) /\ g_fired g = Some (Err EPwgen) /\ g_raised g = repeat EType (length evs).
Proof. exact generate_octets. Qed.
Print Assumptions C88_octets_refuted.
(** A wrong number of lines is a failure, and then also the exception of a second result. *)
Theorem C88_wrong_count_refuted : exists n evs o, 0 < n /\ on_outputs evs o [] /\ exists a g, generate n evs = Ok (a, g) /\ g_raised g <> [].
Proof.
  exists 2, [GOut (PStr (S_ "secret"))], (S_ "secret" ++ []). split; [lia|]. split; [repeat constructor|].
  exists [S_ "pwgen"; S_ "-cn1"; S_ "-N"; S_ "2"], (mkReadpw 2 (PStr (S_ "secret")) (PStr []) (Some (Err EPwgen)) [EAlreadyCalled]). split; [vm_compute; reflexivity|discriminate].
Qed.
Print Assumptions C88_wrong_count_refuted.
Definition c88_out : str := S_ "aB3" ++ [10; 10] ++ S_ "xY9" ++ [10].
Example C88_case : on_outputs [GOut (PStr (S_ "aB")); GOut (PStr (S_ "3" ++ [10; 10] ++ S_ "xY9" ++ [10]))] c88_out [] /\
  text_lines c88_out [S_ "aB3"; S_ "xY9"] /\
  (exists a g, generate 2 [GOut (PStr (S_ "aB")); GOut (PStr (S_ "3" ++ [10; 10] ++ S_ "xY9" ++ [10]))] = Ok (a, g) /\ g_fired g = Some (Ok [S_ "aB3"; S_ "xY9"])) /\
  on_outputs [GErr (PStr (S_ "no")); GOut (PStr (S_ "x"))] (S_ "x") (S_ "no").
Proof.
  split. { apply (outputs_out (S_ "aB") _ (S_ "3" ++ [10; 10] ++ S_ "xY9" ++ [10]) []). change (on_outputs [GOut (PStr (S_ "3" ++ [10; 10] ++ S_ "xY9" ++ [10]))] ((S_ "3" ++ [10; 10] ++ S_ "xY9" ++ [10]) ++ []) []).
    repeat constructor. }
  split. { apply (more_lines [] (S_ "aB3") (10 :: S_ "xY9" ++ [10]) [S_ "xY9"]); [constructor|discriminate|vm_compute; intuition discriminate|discriminate|].
    apply (last_line [10] (S_ "xY9") [10]); [now repeat constructor|discriminate|vm_compute; intuition discriminate|now repeat constructor]. }
  split. { exists [S_ "pwgen"; S_ "-cn1"; S_ "-N"; S_ "2"], (mkReadpw 2 (PStr c88_out) (PStr []) (Some (Ok [S_ "aB3"; S_ "xY9"])) []). split; [vm_compute|]; reflexivity. }
  apply (outputs_err (S_ "no") _ (S_ "x") []). apply (outputs_out (S_ "x") _ [] []). constructor.
Qed.

(** ** C89 *)
(** For an entry of text with the needed attributes, the line has the seven fields of passwd(5): of each
    attribute its least value, the gecos field from cn when there is no gecos, empty when there is
    neither; the shell empty when there is none. *)
Theorem C89_line_partial : forall lower oc e uid num gid gecos home shell, (forall s, lower s = S_ "objectclass" <-> ascii_lower s = S_ "objectclass") ->
  text_entry lower e -> least e (S_ "uid") uid -> least e (S_ "uidNumber") num -> least e (S_ "gidNumber") gid -> least e (S_ "homeDirectory") home ->
  least_or e (S_ "gecos") (least_or e (S_ "cn") (fun v => v = [])) gecos -> least_or e (S_ "loginShell") (fun v => v = []) shell ->
  passwd_line lower oc e = Ok (with_colons [uid; S_ "x"; num; gid; gecos; home; shell] ++ [10]).
Proof. intros lower oc e uid num gid gecos home shell L. now apply line_ok. Qed.
Print Assumptions C89_line_partial.
(** Fields without colon or line end can be read back from the line, in one way only. *)
Theorem C89_fields : forall fs gs, Forall plain_field fs -> Forall (fun g => ~ In 58 g) gs -> fs <> [] -> gs <> [] ->
  with_colons gs = with_colons fs -> gs = fs.
Proof.
  intros fs gs F G NF NG E. apply with_colons_inj; auto. eapply Forall_impl; [|exact F]. intros s (H & _). exact H.
Qed.
Print Assumptions C89_fields.
(** There is no line without uid, uidNumber, gidNumber or homeDirectory. *)
Theorem C89_missing : forall lower oc e k, (forall s, lower s = S_ "objectclass" <-> ascii_lower s = S_ "objectclass") -> text_entry lower e ->
  In k [S_ "uid"; S_ "uidNumber"; S_ "gidNumber"; S_ "homeDirectory"] -> ~ has_attr e k -> passwd_line lower oc e = Err EKey.
Proof. intros lower oc e k L. now apply line_missing. Qed.
Print Assumptions C89_missing.
(** Of an entry as a client receives it, whatever it has, there is no line: the names are octets, and
    their str() is not the name. *)
Theorem C89_received_refuted : forall lower oc d ats, exists x, passwd_line lower oc (new_entry lower d (as_items ats)) = Err x.
Proof. exact line_received. Qed.
Print Assumptions C89_received_refuted.
(** Nor is the name of somebody whose attributes are named in text but hold octets. *)
Example C89_octets_case : exists gs, passwd_line ascii_lower true (new_entry ascii_lower []
  [(PStr (S_ "uid"), [PBytes [z2b 106; z2b 233]]); (PStr (S_ "uidNumber"), [PStr (S_ "1")]); (PStr (S_ "gidNumber"), [PStr (S_ "1")]); (PStr (S_ "homeDirectory"), [PStr (S_ "/")])]) = Ok (S_ "b'j\xe9':" ++ gs).
Proof. eexists. vm_compute. reflexivity. Qed.
Definition c89_dn : dn := [[mkAtv (S_ "uid") (S_ "jo")]].
Definition c89_more (gecos : str) : entry := new_entry ascii_lower c89_dn
  [(PStr (S_ "objectClass"), [PStr (S_ "posixAccount")]); (PStr (S_ "uid"), [PStr (S_ "jo"); PStr (S_ "jim")]); (PStr (S_ "uidNumber"), [PStr (S_ "1000")]);
   (PStr (S_ "gidNumber"), [PStr (S_ "100")]); (PStr (S_ "cn"), [PStr (S_ "Jo Doe")]); (PStr (S_ "homeDirectory"), [PStr (S_ "/home/jo")]); (PStr (S_ "gecos"), [PStr gecos])].
Definition c89_enc (s : str) : bool := match utf8_encode s with Ok _ => true | Err _ => false end.
Lemma c89_ok s : c89_enc s = true -> exists s' b, PStr s = PStr s' /\ utf8_encode s' = Ok b.
Proof. unfold c89_enc. destruct (utf8_encode s) as [b|] eqn:E; [|discriminate]. intros _. exists s, b. auto. Qed.
(** A value with a colon adds a field, one with a line end a whole account. *)
Theorem C89_injection_refuted : exists g, passwd_line ascii_lower true (c89_more g) =
  Ok (with_colons [S_ "jim"; S_ "x"; S_ "1000"; S_ "100"; []; S_ "/"; []] ++ [10] ++ with_colons [S_ "eve"; S_ "x"; S_ "0"; S_ "0"; []; S_ "/home/jo"; []] ++ [10]).
Proof. exists (S_ ":/:" ++ [10] ++ S_ "eve:x:0:0:"). vm_compute. reflexivity. Qed.
Print Assumptions C89_injection_refuted.
(** Names of attributes are compared as they are spelt here, so "UID" is not found. *)
Theorem C89_case_refuted : exists e, text_entry ascii_lower e /\ dict_get ascii_lower (PStr (S_ "uid")) (e_attrs e) <> None /\ passwd_line ascii_lower true e = Err EKey.
Proof.
  exists (new_entry ascii_lower c89_dn [(PStr (S_ "UID"), [PStr (S_ "jo")]); (PStr (S_ "uidNumber"), [PStr (S_ "1000")]); (PStr (S_ "gidNumber"), [PStr (S_ "100")]); (PStr (S_ "homeDirectory"), [PStr (S_ "/")])]).
  split; [|split; vm_compute; [discriminate|reflexivity]]. split.
  - intros a I. vm_compute in I. destruct I as [<-|[<-|[<-|[<-|[]]]]]; (split; [apply c89_ok; vm_compute; reflexivity|]; split; [discriminate|]; intros v [<-|[]]; apply c89_ok; vm_compute; reflexivity).
  - vm_compute. repeat constructor; vm_compute; intuition discriminate.
Qed.
Print Assumptions C89_case_refuted.
Lemma c89_text g b : utf8_encode g = Ok b -> text_entry ascii_lower (c89_more g).
Proof.
  intros G. split.
  - intros a I. change (e_attrs (c89_more g)) with [mkSet (PStr (S_ "objectClass")) [PStr (S_ "posixAccount")]; mkSet (PStr (S_ "uid")) [PStr (S_ "jo"); PStr (S_ "jim")];
      mkSet (PStr (S_ "uidNumber")) [PStr (S_ "1000")]; mkSet (PStr (S_ "gidNumber")) [PStr (S_ "100")]; mkSet (PStr (S_ "cn")) [PStr (S_ "Jo Doe")];
      mkSet (PStr (S_ "homeDirectory")) [PStr (S_ "/home/jo")]; mkSet (PStr (S_ "gecos")) [PStr g]] in I.
    destruct I as [<-|[<-|[<-|[<-|[<-|[<-|[<-|[]]]]]]]]; (split; [apply c89_ok; vm_compute; reflexivity|]); (split; [discriminate|]); intros v I; cbn [In s_vals] in I;
      repeat destruct I as [<-|I]; try destruct I; lazymatch goal with |- context [PStr g = _] => exists g, b; auto | _ => apply c89_ok; vm_compute; reflexivity end.
  - change (NoDup (map (fun k => PStr (S_ k)) ["objectclass"; "uid"; "uidnumber"; "gidnumber"; "cn"; "homedirectory"; "gecos"]%string)). vm_compute. repeat constructor; vm_compute; intuition discriminate.
Qed.
Example C89_case : text_entry ascii_lower (c89_more (S_ "Jo")) /\ least (c89_more (S_ "Jo")) (S_ "uid") (S_ "jim") /\ ~ has_attr (c89_more (S_ "Jo")) (S_ "loginShell") /\
  passwd_line ascii_lower true (c89_more (S_ "Jo")) = Ok (S_ "jim:x:1000:100:Jo:/home/jo:" ++ [10]).
Proof.
  split; [apply (c89_text (S_ "Jo") (B "Jo")); vm_compute; reflexivity|]. split.
  - exists (mkSet (PStr (S_ "uid")) [PStr (S_ "jo"); PStr (S_ "jim")]). split; [vm_compute; auto|]. split; [reflexivity|]. split; [right; now left|].
    intros w I. destruct I as [[= <-]|[[= <-]|[]]]; vm_compute; reflexivity.
  - split; [|vm_compute; reflexivity]. intros (a & I & K). vm_compute in I. destruct I as [<-|[<-|[<-|[<-|[<-|[<-|[<-|[]]]]]]]]; vm_compute in K; discriminate.
Qed.

(** ** C90 *)
(** An address is in a network exactly if it is among the 2^(32-n) addresses from the address of the
    network on, where that address has no bits outside the mask. [int_no_dot]: int() refuses text with a
    dot. *)
Theorem C90_in_net_partial : forall io other dn name a n tm i, int_no_dot io -> ip_ok a -> ip_ok i -> 0 <= n <= 32 -> mask_text n tm -> ip_num a mod 2 ^ (32 - n) = 0 ->
  (in_net io other (mkNet dn name (ip_text a) tm) (ip_text i) = true <-> ip_num a <= ip_num i < ip_num a + 2 ^ (32 - n)) /\
  in_net_raw io other (mkNet dn name (ip_text a) tm) (ip_text i) = Ok (in_net io other (mkNet dn name (ip_text a) tm) (ip_text i)).
Proof.
  intros io other dn name a n tm i IO A I N M Z0. destruct (in_net_raw_spec io other IO dn name a n tm i A I N M) as (b & E & S). pose proof (in_net_of_raw io other _ _ _ E) as E'.
  rewrite E', E. split; [|reflexivity]. tauto.
Qed.
Print Assumptions C90_in_net_partial.
(** An address that cannot be read is in no network. *)
Theorem C90_unreadable : forall io other n ip x, aton io other ip = Err x -> in_net io other n ip = false.
Proof.
  intros io other n ip x E. unfold in_net, in_net_raw. destruct (aton io other (n_address n)); cbn [bind]; [|reflexivity]. destruct (aton io other (n_mask n)); cbn [bind]; [|reflexivity]. now rewrite E.
Qed.
Print Assumptions C90_unreadable.
Example C90_unreadable_case : aton (fun _ => Err EValue) (fun _ => Err EValue) (S_ "10.0.0") = Err EValue.
Proof. vm_compute. reflexivity. Qed.
(** With such bits in its address, a network has no addresses at all. *)
Theorem C90_host_bits_refuted : forall io other dn name a n tm i, int_no_dot io -> ip_ok a -> ip_ok i -> 0 <= n <= 32 -> mask_text n tm -> ip_num a mod 2 ^ (32 - n) <> 0 ->
  in_net io other (mkNet dn name (ip_text a) tm) (ip_text i) = false.
Proof.
  intros io other dn name a n tm i IO A I N M Z0. destruct (in_net_raw_spec io other IO dn name a n tm i A I N M) as (b & E & S). rewrite (in_net_of_raw io other _ _ _ E).
  destruct b; [|reflexivity]. now destruct (proj1 S eq_refl).
Qed.
Print Assumptions C90_host_bits_refuted.
(** No records are written for any network, well formed or not: the broadcast address is computed as a
    negative number, which cannot be packed. inet_aton is taken to give no negative number. *)
Theorem C90_no_records_refuted : forall io other n, (forall s z, other s = Ok z -> 0 <= z) ->
  (exists x, net_forward io other n = Err x) /\ forall d, exists x, net_reverse io other n d = Err x.
Proof. exact no_zone. Qed.
Print Assumptions C90_no_records_refuted.
Theorem C90_broadcast_refuted : forall io other dn name a n tm, int_no_dot io -> ip_ok a -> 0 <= n <= 32 -> mask_text n tm ->
  net_forward io other (mkNet dn name (ip_text a) tm) = Err (EUser 4).
Proof. intros io other dn name a n tm IO. now apply no_zone_range. Qed.
Print Assumptions C90_broadcast_refuted.
(** The record for the name of an address has its parts in reverse order. *)
Theorem C90_ptr : forall name i, ip_ok i ->
  format_ptr name (ip_text i) = dec (ip_d i) ++ S_ "." ++ dec (ip_c i) ++ S_ "." ++ dec (ip_b i) ++ S_ "." ++ dec (ip_a i) ++ S_ ".in-addr.arpa." ++ [9] ++ S_ "IN PTR" ++ [9] ++ name ++ S_ "." ++ [10].
Proof. exact ptr_text. Qed.
Print Assumptions C90_ptr.
Definition c90_io : str -> res Z := fun _ => Err EValue.
Example C90_case : int_no_dot c90_io /\ ip_ok (mkIp4 10 1 0 0) /\ ip_text (mkIp4 10 1 0 0) = S_ "10.1.0.0" /\ mask_text 16 (S_ "16") /\ mask_text 16 (S_ "255.255.0.0") /\
  ip_num (mkIp4 10 1 0 0) mod 2 ^ (32 - 16) = 0 /\ in_net c90_io c90_io (mkNet [] [] (S_ "10.1.0.0") (S_ "255.255.0.0")) (S_ "10.1.7.8") = true /\
  in_net c90_io c90_io (mkNet [] [] (S_ "10.1.0.0") (S_ "16")) (S_ "10.2.7.8") = false /\ ip_num (mkIp4 10 1 0 1) mod 2 ^ (32 - 16) <> 0.
Proof.
  split; [intros s _; reflexivity|]. split; [unfold ip_ok; cbn; lia|]. split; [vm_compute; reflexivity|]. split; [left; vm_compute; reflexivity|].
  split; [right; exists (mkIp4 255 255 0 0); split; [unfold ip_ok; cbn; lia|split; vm_compute; reflexivity]|]. split; [vm_compute; reflexivity|].
  split; [vm_compute; reflexivity|]. split; [vm_compute; reflexivity|vm_compute; discriminate].
Qed.
