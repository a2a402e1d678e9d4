(** C34-C39, C71: the LDAP server. *)
From Verif Require Import Base BaseFacts BerModel LdapModel LdapSpec Utf8Model DnModel DnSpec EntryModel EntryProofs DeltaModel MatchModel UtilModel LdifModel
  PwModel PwSpec PwProofs InmemModel InmemSpec ServerModel ServerSpec ServerProofs ServerText ServerSearch ServerMap InmemHist.

(** ** C34 *)
(** Every request that expects an answer gets the entries it asks for and then one final response of its own kind and id; for a
    directory whose DNs can be encoded, and except for the deletion of an entry with children. *)
Theorem C34_one_final_response_partial : forall lower io sha oc_first pw_first odd_match text depth s salt tag i req cs,
  expects_answer req -> i <> 0 -> dns_encodable (v_heap s) -> not_nonleaf_delete lower io depth s req ->
  exists s' w r, handle lower io sha oc_first pw_first odd_match text depth s salt (OMessage tag (VInt i) req cs) = Ok (s', w) /\ answer text (v_heap s) i req w r.
Proof. exact answered. Qed.
Print Assumptions C34_one_final_response_partial.
(** Over a whole conversation, whatever the messages and the directory: what is written is the
    answers, in turn; each message that expects an answer causes the entries of its id, if it is a search,
    and then one event: a final response of its kind and id, or the log that it cannot be encoded. The
    conversation ends early only at a message that is not a request. *)
Theorem C34_conversation : forall lower io sha oc_first pw_first odd_match text depth ms s s' w x,
  serve lower io sha oc_first pw_first odd_match text depth s ms = (s', w, x) ->
  exists gs, w = concat gs /\ Forall2 (fun m g => exchange (fst m) g) (firstn (length gs) ms) gs /\
    (x = None -> length gs = length ms) /\ (x <> None -> exists m salt, nth_error ms (length gs) = Some (m, salt) /\ not_request m).
Proof. exact serve_groups. Qed.
Print Assumptions C34_conversation.

(** The DNs stay text, so that nothing need be assumed of later states: at any point of any
    conversation with a directory whose DNs were text at the start, the next request is answered.
    ([io] is int() of a digit and another character, base 16.) *)
Theorem C34_at_any_time_partial : forall lower io sha oc_first pw_first odd_match text depth pre s s1 w1 salt tag i req cs,
  (forall a b v, io a b = Ok v -> 0 <= v < 256) -> text_dns (v_heap s) ->
  serve lower io sha oc_first pw_first odd_match text depth s pre = (s1, w1, None) ->
  expects_answer req -> i <> 0 -> not_nonleaf_delete lower io depth s1 req ->
  text_dns (v_heap s1) /\
  exists s' w r, handle lower io sha oc_first pw_first odd_match text depth s1 salt (OMessage tag (VInt i) req cs) = Ok (s', w) /\ answer text (v_heap s1) i req w r.
Proof.
  intros lower io sha oc_first pw_first odd_match text depth pre s s1 w1 salt tag i req cs IO T S E N D. rewrite text_dns_chars in T |- *.
  pose proof (serve_chars lower io sha oc_first pw_first odd_match text depth IO pre s s1 w1 None T S) as T1. split; [exact T1|]. apply answered; try assumption.
  now apply heap_chars_enc.
Qed.
Print Assumptions C34_at_any_time_partial.

(** A directory: dc=com with ou=a, and below it cn=x with the password "secret". *)
Definition sv_io (a b : Z) : res Z := Err EValue.
Definition sv_sha (x : bytes) : bytes := firstn 20 (x ++ repeat (z2b 0) 20).
Definition sv_rd (t v : string) : rdn := [mkAtv (S_ t) (S_ v)].
Definition sv_com : dn := [sv_rd "dc" "com"].
Definition sv_ou : dn := sv_rd "ou" "a" :: sv_com.
Definition sv_x : dn := sv_rd "cn" "x" :: sv_ou.
Definition sv_pair (k v : string) : pyval * list pyval := (PBytes (B k), [PBytes (B v)]).
Definition sv_heap : heap :=
  [mkNode (new_entry ascii_lower sv_com [sv_pair "objectClass" "dcObject"; sv_pair "dc" "com"]) None [(S_ "ou=a", 1%nat)];
   mkNode (new_entry ascii_lower sv_ou [sv_pair "ou" "a"; sv_pair "objectClass" "organizationalUnit"]) (Some 0%nat) [(S_ "cn=x", 2%nat)];
   mkNode (new_entry ascii_lower sv_x [sv_pair "cn" "x"; sv_pair "sn" "y"; sv_pair "userPassword" "secret"]) (Some 1%nat) []].
Definition sv_0 : srv := mkSrv sv_heap 0%nat None.
Definition sv_text (x : exn) : bytes := B "why".
Definition sv_handle := handle ascii_lower sv_io sv_sha true true (fun _ _ => Err EType) sv_text 50%nat.
Definition sv_serve := serve ascii_lower sv_io sv_sha true true (fun _ _ => Err EType) sv_text 50%nat.
Definition sv_msg (i : Z) (req : obj) : obj := OMessage (class_tag KMessage) (VInt i) req None.
Definition sv_del (d : string) : obj := OStr KDelReq (class_tag KDelReq) (B d).
Definition sv_bind (d p : string) : obj := OBindReq (class_tag KBindReq) (VInt 3) (VBytes (B d)) (ASimple (VBytes (B p))).
Definition sv_filter : obj := OStr KPresent (class_tag KPresent) (B "cn").
Definition sv_search (base : string) (scope : Z) (attrs : list pv) : obj :=
  OSearchReq (class_tag KSearchReq) (VBytes (B base)) (VInt scope) (VInt 0) (VInt 0) (VInt 0) (VInt 0) sv_filter attrs.
Lemma sv_encodable : dns_encodable sv_heap.
Proof. intros [|[|[|r]]] n H; cbn in H; try discriminate; [| | |destruct r; discriminate]; injection H as <-; eexists; vm_compute; reflexivity. Qed.
Lemma sv_text_dns : text_dns sv_heap.
Proof.
  assert (T : forall t v, In (t, v) [("dc", "com"); ("ou", "a"); ("cn", "x")]%string -> is_text (S_ t) /\ is_text (S_ v)).
  { intros t v [[= <- <-]|[[= <- <-]|[[= <- <-]|[]]]]; (split; apply Forall_forall; intros c I; vm_compute in I; repeat (destruct I as [<-|I]; [lia|]); destruct I). }
  intros [|[|[|r]]] n rd a N R A; cbn in N; try discriminate; [| | |destruct r; discriminate]; injection N as <-;
    repeat (destruct R as [<-|R]; [destruct A as [<-|[]]; apply T; cbn; auto|]); destruct R.
Qed.
(** Unlike RFC 4511 wants, an abandon request is answered. *)
Theorem C34_abandon_refuted : exists s i ev, i <> 0 /\
  sv_handle s [] (sv_msg i (OInt KAbandon (class_tag KAbandon) 7)) = Ok (s, [ev]) /\
  sends ev i (ExtendedResponse (mkResult 2 [] (B "Unknown request")) (Some (B "1.3.6.1.4.1.1466.20036")) None).
Proof. exists sv_0, 9. eexists. split; [lia|]. split; [vm_compute; reflexivity|]. eexists. split; vm_compute; reflexivity. Qed.
Print Assumptions C34_abandon_refuted.
(** The deletion of an entry with children is not answered: only the failure to encode the answer is logged. *)
Theorem C34_nonleaf_delete_refuted : exists s id x, expects_answer (sv_del "ou=a,dc=com") /\ dns_encodable (v_heap s) /\
  sv_handle s [] (sv_msg id (sv_del "ou=a,dc=com")) = Ok (s, [SDropped x]).
Proof. exists sv_0, 8, EType. split; [exact I|]. split; [exact sv_encodable|]. vm_compute. reflexivity. Qed.
Print Assumptions C34_nonleaf_delete_refuted.
Example C34_case2 : text_dns (v_heap sv_0) /\ (forall a b v, sv_io a b = Ok v -> 0 <= v < 256) /\
  exists s1 w1, sv_serve sv_0 [(sv_msg 1 (sv_bind "cn=x,ou=a,dc=com" "secret"), []); (sv_msg 2 (sv_del "cn=x,ou=a,dc=com"), [])] = (s1, w1, None) /\ length w1 = 2%nat.
Proof. split; [exact sv_text_dns|]. split; [discriminate|]. eexists. eexists. split; vm_compute; reflexivity. Qed.
Example C34_case : expects_answer (sv_search "dc=com" 2 []) /\ dns_encodable (v_heap sv_0) /\
  not_nonleaf_delete ascii_lower sv_io 50%nat sv_0 (sv_del "cn=x,ou=a,dc=com") /\
  exists b1 b2, sv_handle sv_0 [] (sv_msg 8 (sv_search "dc=com" 2 [VBytes (B "SN"); VBytes (B "zz")])) =
    Ok (sv_0, [SWrite (VInt 8) (response_obj (SearchEntry (B "cn=x,ou=a,dc=com") [(B "SN", [B "y"])])) b1;
               SWrite (VInt 8) (response_obj (SearchDone (mkResult 0 [] []))) b2]).
Proof.
  split; [exact I|]. split; [exact sv_encodable|]. split.
  - intros t d r n U P L N. assert (r = 2%nat) as -> by (vm_compute in U; injection U as <-; vm_compute in P; injection P as <-; vm_compute in L; congruence).
    cbn in N. injection N as <-. now right.
  - eexists. eexists. vm_compute. reflexivity.
Qed.

(** ** C35 *)
(** A critical control, at any position: the operation is refused, with nothing changed; binds of other protocol versions are refused before. *)
Theorem C35_critical_control_partial : forall lower io sha oc_first pw_first odd_match text depth s salt tag i req cs,
  expects_answer req -> (forall t v d a, req = OBindReq t v d a -> v = VInt 3) -> i <> 0 -> has_critical cs -> names_octets cs ->
  exists fin r, handle lower io sha oc_first pw_first odd_match text depth s salt (OMessage tag (VInt i) req (Some cs)) = Ok (s, [fin]) /\
    final_for req r /\ r_code (result_of r) = 12 /\ r_dn (result_of r) = [] /\ plain text (v_heap s) r /\ (sane i r -> sends fin i r).
Proof.
  intros lower io sha oc_first pw_first odd_match text depth s salt tag i req cs E V. apply refused; [exact E|]. destruct req; try exact I. exact (V _ _ _ _ eq_refl).
Qed.
Print Assumptions C35_critical_control_partial.
(** An abandon or an unbind with a critical control is carried out all the same, and a bind of another version is not answered with 12. *)
Definition sv_critical : list (pv * pv * pv) := [(VBytes (B "1.2.3"), VInt 0, VNone); (VBytes (B "1.2.4"), VInt 255, VNone)].
Theorem C35_bind_version_refuted : exists s b req, expects_answer req /\ has_critical sv_critical /\ names_octets sv_critical /\
  sv_handle s [] (OMessage 0x30 (VInt 5) req (Some sv_critical)) = Ok (s, [SWrite (VInt 5) (response_obj (BindResponse (mkResult 2 [] (B "why")) None)) b]).
Proof.
  exists sv_0. eexists. exists (OBindReq (class_tag KBindReq) (VInt 2) (VBytes (B "dc=com")) (ASimple (VBytes (B "secret")))). split; [exact I|]. split.
  - exists (VBytes (B "1.2.4")), (VInt 255), VNone. split; [right; now left|reflexivity].
  - split; [|vm_compute; reflexivity]. intros t cr v [[= <- _ _]|[[= <- _ _]|[]]]; eauto.
Qed.
Print Assumptions C35_bind_version_refuted.
Theorem C35_unbind_refuted : exists s, has_critical sv_critical /\
  sv_handle s [] (OMessage 0x30 (VInt 5) (ONull KUnbind (class_tag KUnbind)) (Some sv_critical)) = Ok (s, [SClose]).
Proof. exists sv_0. split; [|vm_compute; reflexivity]. exists (VBytes (B "1.2.4")), (VInt 255), VNone. split; [right; now left|reflexivity]. Qed.
Print Assumptions C35_unbind_refuted.
Example C35_case : has_critical sv_critical /\ names_octets sv_critical /\ exists b,
  sv_handle sv_0 [] (OMessage 0x30 (VInt 5) (sv_del "cn=x,ou=a,dc=com") (Some sv_critical)) =
    Ok (sv_0, [SWrite (VInt 5) (response_obj (DeleteResponse (mkResult 12 [] (B "why")))) b]).
Proof.
  split; [exists (VBytes (B "1.2.4")), (VInt 255), VNone; split; [right; now left|reflexivity]|].
  split; [intros t cr v [[= <- _ _]|[[= <- _ _]|[]]]; eauto|]. eexists. vm_compute. reflexivity.
Qed.

(** ** C36 *)
(** In every conversation that starts anonymous: if the session is bound to an entry, then an earlier
    message was a bind for its DN with a password that it admitted at that time, and the session was
    that entry's ever since. *)
Theorem C36_bound_means_authenticated : forall lower io sha oc_first pw_first odd_match text depth ms s s' w x r,
  v_bound s = None -> serve lower io sha oc_first pw_first odd_match text depth s ms = (s', w, x) -> v_bound s' = Some r ->
  exists pre m salt post s1 w1, ms = pre ++ (m, salt) :: post /\
    serve lower io sha oc_first pw_first odd_match text depth s pre = (s1, w1, None) /\ authenticates lower io sha depth s1 m r /\
    (forall post1 post2 s2 w2, post = post1 ++ post2 ->
       serve lower io sha oc_first pw_first odd_match text depth s (pre ++ (m, salt) :: post1) = (s2, w2, None) -> v_bound s2 = Some r).
Proof. exact session_identity. Qed.
Print Assumptions C36_bound_means_authenticated.
(** The identity changes in no other way: one message at a time. *)
Theorem C36_identity_step : forall lower io sha oc_first pw_first odd_match text depth s salt m s' w,
  handle lower io sha oc_first pw_first odd_match text depth s salt m = Ok (s', w) ->
  v_bound s' = v_bound s \/ (anonymous m /\ v_bound s' = None) \/ (exists r, authenticates lower io sha depth s m r /\ v_bound s' = Some r).
Proof. exact identity_step. Qed.
Print Assumptions C36_identity_step.
(** What binds are answered. Anonymous: success, and the session is anonymous. *)
Theorem C36_anonymous_bind : forall lower io sha oc_first pw_first odd_match text depth s salt tag i t auth cs, i <> 0 -> no_critical cs ->
  exists fin, handle lower io sha oc_first pw_first odd_match text depth s salt (OMessage tag (VInt i) (OBindReq t (VInt 3) (VBytes []) auth) cs) = Ok (set_bound s None, [fin]) /\
    (sane i (BindResponse (mkResult 0 [] []) None) -> sends fin i (BindResponse (mkResult 0 [] []) None)).
Proof. exact bind_anonymous. Qed.
Print Assumptions C36_anonymous_bind.
(** With a password that the entry admits: success, and the session is the entry's. *)
Theorem C36_right_password : forall lower io sha oc_first pw_first odd_match text depth s salt tag i t b auth cs u d pw,
  i <> 0 -> b <> [] -> no_critical cs -> utf8_decode b = Ok u -> parse_dn io u = Ok d -> auth_bytes auth = Ok pw ->
  forall r n, lookup lower depth (v_heap s) (v_root s) d = Ok r -> nth_error (v_heap s) r = Some n ->
  dns_encodable (v_heap s) -> (forall x, length (sha x) = 20%nat) ->
  keys_distinct lower (n_entry n) -> passwords_readable lower (n_entry n) -> entry_admits sha lower (n_entry n) pw ->
  exists fin name, handle lower io sha oc_first pw_first odd_match text depth s salt (OMessage tag (VInt i) (OBindReq t (VInt 3) (VBytes b) auth) cs) = Ok (set_bound s (Some r), [fin]) /\
    utf8_encode (dn_text (n_dn n)) = Ok name /\
    (sane i (BindResponse (mkResult 0 name []) None) -> sends fin i (BindResponse (mkResult 0 name []) None)).
Proof. exact bind_right. Qed.
Print Assumptions C36_right_password.
(** With another password: invalidCredentials, and nothing changes. *)
Theorem C36_wrong_password : forall lower io sha oc_first pw_first odd_match text depth s salt tag i t b auth cs u d pw,
  i <> 0 -> b <> [] -> no_critical cs -> utf8_decode b = Ok u -> parse_dn io u = Ok d -> auth_bytes auth = Ok pw ->
  forall r n, lookup lower depth (v_heap s) (v_root s) d = Ok r -> nth_error (v_heap s) r = Some n ->
  passwords_readable lower (n_entry n) -> ~ entry_admits sha lower (n_entry n) pw ->
  exists fin m, m = text (ELdap 49) /\ handle lower io sha oc_first pw_first odd_match text depth s salt (OMessage tag (VInt i) (OBindReq t (VInt 3) (VBytes b) auth) cs) = Ok (s, [fin]) /\
    (sane i (BindResponse (mkResult 49 [] m) None) -> sends fin i (BindResponse (mkResult 49 [] m) None)).
Proof. exact bind_wrong. Qed.
Print Assumptions C36_wrong_password.
(** For a DN that is not in the directory, the same answer. *)
Theorem C36_no_such_entry : forall lower io sha oc_first pw_first odd_match text depth s salt tag i t b auth cs u d pw,
  i <> 0 -> b <> [] -> no_critical cs -> utf8_decode b = Ok u -> parse_dn io u = Ok d -> auth_bytes auth = Ok pw ->
  lookup lower depth (v_heap s) (v_root s) d = Err (ELdap 32) ->
  exists fin m, m = text (ELdap 49) /\ handle lower io sha oc_first pw_first odd_match text depth s salt (OMessage tag (VInt i) (OBindReq t (VInt 3) (VBytes b) auth) cs) = Ok (s, [fin]) /\
    (sane i (BindResponse (mkResult 49 [] m) None) -> sends fin i (BindResponse (mkResult 49 [] m) None)).
Proof. exact bind_nobody. Qed.
Print Assumptions C36_no_such_entry.
(** RFC 4513: a failed bind makes the session anonymous. Here it stays who it was. *)
Theorem C36_failed_bind_refuted : exists ms s' w, sv_serve sv_0 ms = (s', w, None) /\ v_bound s' = Some 2%nat /\
  ms = [(sv_msg 1 (sv_bind "cn=x,ou=a,dc=com" "secret"), []); (sv_msg 2 (sv_bind "cn=x,ou=a,dc=com" "wrong"), [])] /\
  exists a b, w = [a; SWrite (VInt 2) (response_obj (BindResponse (mkResult 49 [] (B "why")) None)) b].
Proof. do 3 eexists. split; [|split; [|split; [reflexivity|]]]; [vm_compute; reflexivity|reflexivity|]. eexists. eexists. reflexivity. Qed.
Print Assumptions C36_failed_bind_refuted.
Example C36_case : exists n, nth_error sv_heap 2 = Some n /\ keys_distinct ascii_lower (n_entry n) /\ passwords_readable ascii_lower (n_entry n) /\
  entry_admits sv_sha ascii_lower (n_entry n) (B "secret") /\ ~ entry_admits sv_sha ascii_lower (n_entry n) (B "wrong") /\ (forall x, length (sv_sha x) = 20%nat) /\
  lookup ascii_lower 50 sv_heap 0%nat sv_x = Ok 2%nat.
Proof.
  eexists. split; [reflexivity|].
  assert (R : passwords_readable ascii_lower (new_entry ascii_lower sv_x [sv_pair "cn" "x"; sv_pair "sn" "y"; sv_pair "userPassword" "secret"])).
  { intros a v I P J. vm_compute in I. destruct I as [<-|[<-|[<-|[]]]]; vm_compute in P; try discriminate. destruct J as [<-|[]].
    exists (B "secret"). split; [reflexivity|]. intros t E. vm_compute in E. discriminate. }
  split; [|split; [exact R|split; [|split; [|split; [|vm_compute; reflexivity]]]]].
  - unfold keys_distinct. vm_compute. repeat constructor; cbn; intuition discriminate.
  - exists (mkSet (PBytes (B "userPassword")) [PBytes (B "secret")]), (PBytes (B "secret")), (B "secret"). split; [vm_compute; tauto|]. split; [reflexivity|].
    split; [now left|]. split; [reflexivity|]. left. split; [|reflexivity]. intros (t & E). vm_compute in E. discriminate.
  - intros A. assert (S : forall x, length (sv_sha x) = 20%nat) by (intros; unfold sv_sha; rewrite firstn_length, app_length, repeat_length; lia).
    assert (K : keys_distinct ascii_lower (new_entry ascii_lower sv_x [sv_pair "cn" "x"; sv_pair "sn" "y"; sv_pair "userPassword" "secret"])) by (unfold keys_distinct; vm_compute; repeat constructor; cbn; intuition discriminate).
    pose proof (bind_complete ascii_lower sv_sha true S (B "wrong") _ K R A) as E. vm_compute in E. discriminate.
  - intros; unfold sv_sha; rewrite firstn_length, app_length, repeat_length; lia.
Qed.

(** ** C37 *)
(** After setting a password, with any salt, on any entry: a password binds exactly if its salted hash is that of the new one
    (in particular the new one binds, and an old one only if it collides); DN and other attributes stay. *)
Theorem C37_set_password_replaces : forall (lower : str -> str) (sha : bytes -> bytes) (str_first : bool) (new salt : bytes) (e : entry),
  (forall x, length (sha x) = 20%nat) ->
  exists e', setPassword sha lower str_first new salt e = Ok e' /\
    (forall pw, entry_bind sha lower str_first pw e' = Ok tt <-> sha (pw ++ salt) = sha (new ++ salt)) /\
    (forall pw, sha (pw ++ salt) <> sha (new ++ salt) -> entry_bind sha lower str_first pw e' = Err EInvalidCredentials) /\
    e_dn e' = e_dn e /\
    (forall k, lowv lower k <> lowv lower (PStr (S_ "userPassword")) -> lowv lower k <> lowv lower (PBytes (B "userPassword")) ->
       dict_get lower k (e_attrs e') = dict_get lower k (e_attrs e)).
Proof.
  intros lower sha str_first new salt e SL. destruct (set_password_spec lower sha str_first new salt e) as (e' & SP & O & D & K). exists e'.
  assert (EB : forall pw, entry_bind sha lower str_first pw e' = if bytes_eqb (sha (pw ++ salt)) (sha (new ++ salt)) then Ok tt else Err EInvalidCredentials).
  { intros pw. apply (bind_only lower sha str_first (sshaDigest sha new salt) e' pw _ O). now apply accepts_digest. }
  split; [exact SP|]. split; [|split; [|split; [exact D|exact K]]].
  - intros pw. rewrite EB. destruct (bytes_eqb_spec (sha (pw ++ salt)) (sha (new ++ salt))) as [E|E]; split; congruence.
  - intros pw N. rewrite EB. destruct (bytes_eqb_spec (sha (pw ++ salt)) (sha (new ++ salt))) as [E|E]; congruence.
Qed.
Print Assumptions C37_set_password_replaces.
Example C37_case : let e := new_entry ascii_lower sv_x [sv_pair "cn" "x"; sv_pair "userPassword" "secret"] in
  entry_bind sv_sha ascii_lower true (B "secret") e = Ok tt /\ exists e', setPassword sv_sha ascii_lower true (B "other") (B "salt") e = Ok e' /\
  entry_bind sv_sha ascii_lower true (B "other") e' = Ok tt /\ entry_bind sv_sha ascii_lower true (B "secret") e' = Err EInvalidCredentials /\
  (forall x, length (sv_sha x) = 20%nat).
Proof.
  split; [vm_compute; reflexivity|]. eexists. split; [vm_compute; reflexivity|]. split; [vm_compute; reflexivity|]. split; [vm_compute; reflexivity|].
  intros; unfold sv_sha; rewrite firstn_length, app_length, repeat_length; lia.
Qed.

(** ** C38 *)
(** Any extended request (any name, any value, well-formed or not): either nothing changes and the answer is
    an error, or the session is bound, the request asks for just a new password and names nobody but
    the bound entry, and the only change is that this entry's password is set. *)
Theorem C38_password_modify : forall lower io sha oc_first pw_first odd_match text depth s salt tag i t name value cs,
  i <> 0 -> dns_encodable (v_heap s) ->
  exists s' fin code m nm, said text m /\ (nm = None \/ nm = Some rfc_pw_oid) /\ 0 <= code < 128 /\ handle lower io sha oc_first pw_first odd_match text depth s salt (OMessage tag (VInt i) (OExtReq t name value) cs) = Ok (s', [fin]) /\
    (sane i (ExtendedResponse (mkResult code [] m) nm None) -> sends fin i (ExtendedResponse (mkResult code [] m) nm None)) /\
    ((s' = s /\ code <> 0) \/
     (code = 0 /\ exists r n me new e', name = VBytes rfc_pw_oid /\ v_bound s = Some r /\ nth_error (v_heap s) r = Some n /\
        utf8_encode (dn_text (n_dn n)) = Ok me /\ asks_new_password value me new /\ setPassword sha lower pw_first new salt (n_entry n) = Ok e' /\
        s' = set_heap s (set_nth r (set_entry n e') (v_heap s)))).
Proof.
  change rfc_pw_oid with pw_oid.
  intros lower io sha oc_first pw_first odd_match text depth s salt tag i t name value cs N E.
  destruct (extended_spec lower io sha pw_first odd_match text s salt name value cs E) as [(r & n & me & new & e' & -> & B & D & ME & A & SP & H)|(out & code & m & nm & H & C & SM & -> & O)].
  - destruct (ext_answer lower io sha oc_first pw_first odd_match text depth s salt tag i t (VBytes pw_oid) value cs _ _ 0 pw_oid [] N H (or_introl eq_refl)) as (fin & nm' & NM & HH & S).
    exists (set_heap s (set_nth r (set_entry n e') (v_heap s))), fin, 0, [], nm'. split; [now left|]. split; [exact NM|]. split; [lia|]. split; [exact HH|]. split; [exact S|]. right. split; [reflexivity|].
    exists r, n, me, new, e'. auto 8.
  - destruct (ext_answer lower io sha oc_first pw_first odd_match text depth s salt tag i t name value cs s out code pw_oid m N H O) as (fin & nm' & NM & HH & S).
    exists s, fin, code, m, nm'. split; [exact SM|]. split; [exact NM|]. split; [lia|]. split; [exact HH|]. split; [exact S|]. left. split; [reflexivity|lia].
Qed.
Print Assumptions C38_password_modify.
(** A request that does ask that is granted. *)
Theorem C38_granted : forall lower io sha oc_first pw_first odd_match text depth s salt tag i t value cs r n me new,
  i <> 0 -> no_critical cs -> v_bound s = Some r -> nth_error (v_heap s) r = Some n -> utf8_encode (dn_text (n_dn n)) = Ok me -> asks_new_password value me new ->
  exists e' fin nm, (nm = None \/ nm = Some rfc_pw_oid) /\ setPassword sha lower pw_first new salt (n_entry n) = Ok e' /\
    handle lower io sha oc_first pw_first odd_match text depth s salt (OMessage tag (VInt i) (OExtReq t (VBytes rfc_pw_oid) value) cs) =
      Ok (set_heap s (set_nth r (set_entry n e') (v_heap s)), [fin]) /\
    (sane i (ExtendedResponse (mkResult 0 [] []) nm None) -> sends fin i (ExtendedResponse (mkResult 0 [] []) nm None)).
Proof.
  change rfc_pw_oid with pw_oid.
  intros lower io sha oc_first pw_first odd_match text depth s salt tag i t value cs r n me new N C B D ME A.
  destruct (extended_does lower io sha pw_first text s salt value cs r n me new C B D ME A) as (e' & SP & H).
  destruct (ext_answer lower io sha oc_first pw_first odd_match text depth s salt tag i t (VBytes pw_oid) value cs _ _ 0 pw_oid [] N H (or_introl eq_refl)) as (fin & nm & NM & HH & S).
  exists e', fin, nm. auto.
Qed.
Print Assumptions C38_granted.
(** What is refused says why: an operation that is not known is a protocol error (2), without a bind it takes strong authentication (8),
    and for another entry than the bound one there is no access (50); nothing changes. *)
Theorem C38_refusals : forall lower io sha oc_first pw_first odd_match text depth s salt tag i t name value cs, i <> 0 -> no_critical cs -> forall code,
  ((name <> VBytes rfc_pw_oid /\ code = 2) \/
   (name = VBytes rfc_pw_oid /\ exists u new, asks_new_password value u new /\
      ((v_bound s = None /\ code = 8) \/
       (exists r n me, v_bound s = Some r /\ nth_error (v_heap s) r = Some n /\ utf8_encode (dn_text (n_dn n)) = Ok me /\ ~ asks_new_password value me new /\ code = 50)))) ->
  exists fin nm, (nm = None \/ nm = Some rfc_pw_oid) /\ handle lower io sha oc_first pw_first odd_match text depth s salt (OMessage tag (VInt i) (OExtReq t name value) cs) = Ok (s, [fin]) /\
    (sane i (ExtendedResponse (mkResult code [] (text (ELdap code))) nm None) -> sends fin i (ExtendedResponse (mkResult code [] (text (ELdap code))) nm None)).
Proof.
  change rfc_pw_oid with pw_oid. intros lower io sha oc_first pw_first odd_match text depth s salt tag i t name value cs N C code H.
  assert (X : exists out, handle_extended lower sha pw_first text s salt name value cs = (s, [], out) /\
    (out = Return (Some (ext_obj code (VBytes (text (ELdap code))) (VBytes pw_oid))) \/ exists x, out = Raise x (VBytes (text (ELdap code))) /\ code = match x with ELdap c => c | _ => 2 end)).
  { destruct H as [(H & ->)|(-> & u & new & A & H)].
    - eexists. split; [eapply ext_unknown; [exact C|exact H]|]. right. exists (ELdap 2). auto.
    - eexists. split; [exact (ext_refuses lower io sha pw_first text s salt value cs u new code C A H)|]. now left. }
  destruct X as (out & E & O). destruct (ext_answer lower io sha oc_first pw_first odd_match text depth s salt tag i t name value cs s out code pw_oid _ N E O) as (fin & nm & NM & HH & S).
  exists fin, nm. auto.
Qed.
Print Assumptions C38_refusals.
Definition sv_bound : srv := set_bound sv_0 (Some 2%nat).
Definition sv_pwreq (user : string) (new : string) : bytes :=
  match toWire (OSeq KSeq (class_tag KSeq) [OStr KPwUser (class_tag KPwUser) (B user); OStr KPwNew (class_tag KPwNew) (B new)]) with Ok b => b | Err _ => [] end.
Example C38_case : asks_new_password (VBytes (sv_pwreq "cn=x,ou=a,dc=com" "fresh")) (B "cn=x,ou=a,dc=com") (B "fresh") /\
  (exists h b, sv_handle sv_bound (B "pepper") (sv_msg 4 (OExtReq (class_tag KExtReq) (VBytes pw_oid) (VBytes (sv_pwreq "cn=x,ou=a,dc=com" "fresh")))) =
     Ok (set_heap sv_bound h, [SWrite (VInt 4) (response_obj (ExtendedResponse (mkResult 0 [] []) (Some pw_oid) None)) b]) /\ h <> sv_heap) /\
  (exists b, sv_handle sv_bound (B "pepper") (sv_msg 4 (OExtReq (class_tag KExtReq) (VBytes pw_oid) (VBytes (sv_pwreq "ou=a,dc=com" "fresh")))) =
     Ok (sv_bound, [SWrite (VInt 4) (response_obj (ExtendedResponse (mkResult 50 [] (B "why")) (Some pw_oid) None)) b])).
Proof.
  split; [|split].
  - exists (sv_pwreq "cn=x,ou=a,dc=com" "fresh"). eexists. eexists. eexists. split; [reflexivity|]. split; [vm_compute; reflexivity|].
    split; [|split; [reflexivity|split; [reflexivity|right; reflexivity]]].
    intros o [<-|[<-|[]]]; do 3 eexists; (split; [reflexivity|auto]).
  - eexists. eexists. split; [vm_compute; reflexivity|]. vm_compute. discriminate.
  - eexists. vm_compute. reflexivity.
Qed.
Example C38_refusals_case : v_bound sv_0 = None /\
  (exists b, sv_handle sv_0 [] (sv_msg 4 (OExtReq (class_tag KExtReq) (VBytes rfc_pw_oid) (VBytes (sv_pwreq "cn=x,ou=a,dc=com" "fresh")))) =
     Ok (sv_0, [SWrite (VInt 4) (response_obj (ExtendedResponse (mkResult 8 [] (B "why")) (Some rfc_pw_oid) None)) b])) /\
  (exists b, sv_handle sv_bound [] (sv_msg 4 (OExtReq (class_tag KExtReq) (VBytes (B "1.2.3")) VNone)) =
     Ok (sv_bound, [SWrite (VInt 4) (response_obj (ExtendedResponse (mkResult 2 [] (B "why")) None None)) b])).
Proof. split; [reflexivity|]. split; eexists; vm_compute; reflexivity. Qed.

(** ** C39 *)
(** Every entry written in answer to a search, before the final response, belongs to an entry of the
    directory in scope that matches; it carries the id, the entry's DN, and the attributes asked for. (The search for the root DSE is
    answered by other code: below.) *)
Theorem C39_requested_attributes_partial : forall lower io sha oc_first pw_first odd_match text depth s salt tag i t base scope da sl tl ty f attrs cs s' w,
  lower (S_ "objectClass") = S_ "objectclass" -> i <> 0 -> ~ (base = VBytes [] /\ scope = VInt 0) -> heap_keys lower (v_heap s) ->
  handle lower io sha oc_first pw_first odd_match text depth s salt (OMessage tag (VInt i) (OSearchReq t base scope da sl tl ty f attrs) cs) = Ok (s', w) ->
  s' = s /\ exists es fin, w = es ++ [fin] /\ forall ev, In ev es -> exists z sc d r c, scope = VInt z /\ scope_of z = Some sc /\
    to_dn io base = Ok d /\ lookup lower depth (v_heap s) (v_root s) d = Ok r /\ in_scope (v_heap s) sc r c /\ sent_for lower odd_match i f attrs (v_heap s) c ev.
Proof. intros lower io sha oc_first pw_first odd_match text depth s salt tag i t base scope da sl tl ty f attrs cs s' w LO. now apply search_sends. Qed.
Print Assumptions C39_requested_attributes_partial.
(** The root DSE is sent with all its attributes, whatever was asked for. *)
Theorem C39_root_dse_refuted : exists s w b1 b2, sv_handle s [] (sv_msg 3 (OSearchReq (class_tag KSearchReq) (VBytes []) (VInt 0) (VInt 0) (VInt 0) (VInt 0) (VInt 0)
    (OStr KPresent (class_tag KPresent) (B "objectClass")) [VBytes (B "supportedLDAPVersion")])) = Ok (s, w) /\
  w = [SWrite (VInt 3) (response_obj (SearchEntry [] [(B "supportedLDAPVersion", [B "3"]); (B "namingContexts", [B "dc=com"]); (B "supportedExtension", [pw_oid])])) b1;
       SWrite (VInt 3) (response_obj (SearchDone (mkResult 0 [] []))) b2].
Proof. exists sv_0. do 3 eexists. split; [vm_compute; reflexivity|]. reflexivity. Qed.
Print Assumptions C39_root_dse_refuted.
Lemma sv_keys : heap_keys ascii_lower sv_heap.
Proof.
  intros [|[|[|r]]] n H; cbn in H; try discriminate; [| | |destruct r; discriminate]; injection H as <-; unfold keys_distinct; vm_compute; repeat constructor; cbn; intuition discriminate.
Qed.
Example C39_case : ascii_lower (S_ "objectClass") = S_ "objectclass" /\ heap_keys ascii_lower (v_heap sv_0) /\
  exists b1 b2, sv_handle sv_0 [] (sv_msg 8 (sv_search "ou=A,dc=com" 1 [VBytes (B "sn"); VBytes (B "CN")])) =
    Ok (sv_0, [SWrite (VInt 8) (response_obj (SearchEntry (B "cn=x,ou=a,dc=com") [(B "sn", [B "y"]); (B "CN", [B "x"])])) b1;
               SWrite (VInt 8) (response_obj (SearchDone (mkResult 0 [] []))) b2]).
Proof. split; [reflexivity|]. split; [exact sv_keys|]. eexists. eexists. vm_compute. reflexivity. Qed.

(** ** C71 *)
(** In a tree of plain entries, a search that can be evaluated is answered by exactly the entries in
    scope that match, one response each, and then success. *)
Theorem C71_search_answers_exactly : forall lower io sha oc_first pw_first odd_match text depth s salt tag i t base sc da sl tl ty f attrs cs L d r,
  lower (S_ "objectClass") = S_ "objectclass" -> i <> 0 -> ~ (base = VBytes [] /\ sc = ScBase) -> no_critical cs ->
  tree (v_heap s) L -> heap_keys lower (v_heap s) -> to_dn io base = Ok d -> lookup lower depth (v_heap s) (v_root s) d = Ok r -> In r L ->
  shallow (v_heap s) L r depth -> names_utf8 attrs ->
  (forall c n, in_scope (v_heap s) sc r c -> nth_error (v_heap s) c = Some n ->
     plain_entry (n_entry n) /\ (exists b, matchf lower odd_match (n_entry n) f = Ok b) /\
     (forall o, entry_response lower oc_first attrs (n_entry n) = Ok o -> obj_size (OMessage (class_tag KMessage) (VInt i) o None) < 256 ^ 127)) ->
  exists es fin found, handle lower io sha oc_first pw_first odd_match text depth s salt
      (OMessage tag (VInt i) (OSearchReq t base (VInt (match sc with ScBase => 0 | ScOne => 1 | ScSub => 2 end)) da sl tl ty f attrs) cs) = Ok (s, es ++ [fin]) /\
    NoDup found /\
    (forall c, In c found <-> in_scope (v_heap s) sc r c /\ exists n, nth_error (v_heap s) c = Some n /\ matchf lower odd_match (n_entry n) f = Ok true) /\
    Forall2 (sent_for lower odd_match i f attrs (v_heap s)) found es /\
    (sane i (SearchDone (mkResult 0 [] [])) -> sends fin i (SearchDone (mkResult 0 [] []))).
Proof.
  intros lower io sha oc_first pw_first odd_match text depth s salt tag i t base sc da sl tl ty f attrs cs L d r LO N NR C T HK D LK I Sh NU P.
  apply (search_exactly lower io sha oc_first pw_first odd_match text depth LO s salt tag i t base sc da sl tl ty f attrs cs L d r); try assumption.
  intros c n SC NN. destruct (P c n SC NN) as (PE & ([|] & M) & SZ); [right|now left]. split; [exact M|]. now apply plain_queued.
Qed.
Print Assumptions C71_search_answers_exactly.
Example C71_case : tree sv_heap [0%nat; 1%nat; 2%nat] /\ shallow sv_heap [0%nat; 1%nat; 2%nat] 0%nat 50%nat /\
  (forall c n, nth_error sv_heap c = Some n -> plain_entry (n_entry n) /\ exists b, matchf ascii_lower (fun _ _ => Err EType) (n_entry n) sv_filter = Ok b) /\
  (forall c n o, nth_error sv_heap c = Some n -> entry_response ascii_lower true [] (n_entry n) = Ok o -> obj_size (OMessage (class_tag KMessage) (VInt 1) o None) < 256 ^ 127).
Proof.
  assert (D : forall c n, nth_error sv_heap c = Some n -> c = 0%nat \/ c = 1%nat \/ c = 2%nat).
  { intros [|[|[|c]]] n H; auto. destruct c; discriminate. }
  assert (K : forall c, kids sv_heap c = match c with 0%nat => [1%nat] | 1%nat => [2%nat] | _ => [] end).
  { intros [|[|[|c]]]; try reflexivity. destruct c; reflexivity. }
  split; [|split; [|split]].
  - constructor.
    + repeat constructor; cbn; intuition discriminate.
    + now left.
    + intros r [<-|[<-|[<-|[]]]]; eexists; reflexivity.
    + intros r c [<-|[<-|[<-|[]]]]; rewrite K; cbn; tauto.
    + intros r c n m [<-|[<-|[<-|[]]]]; rewrite K; cbn [In]; intros J H1 H2; try contradiction; destruct J as [<-|[]]; cbn in H1, H2; injection H1 as <-; injection H2 as <-; eexists; reflexivity.
    + intros r _. rewrite K. destruct r as [|[|r]]; repeat constructor; intros [].
    + intros a b c [<-|[<-|[<-|[]]]] [<-|[<-|[<-|[]]]]; rewrite !K; cbn; intuition congruence.
    + intros c [<-|[<-|[<-|[]]]] N; [congruence|exists 0%nat|exists 1%nat]; rewrite K; cbn; auto.
  - intros c n m [<-|[<-|[<-|[]]]] H1 H2; cbn in H1, H2; injection H1 as <-; injection H2 as <-; cbn; lia.
  - intros c n H. destruct (D c n H) as [->|[-> | ->]]; cbn in H; injection H as <-; (split; [|eexists; vm_compute; reflexivity]); (split; [eexists; vm_compute; reflexivity|]);
      intros a I; vm_compute in I; repeat (destruct I as [<-|I]; [split; [eexists; reflexivity|split; [intros v [<-|[]]; eexists; reflexivity|left; intros v [<-|[]]; eexists; reflexivity]]|]); destruct I.
  - intros c n o H R. destruct (D c n H) as [->|[-> | ->]]; cbn in H; injection H as <-; vm_compute in R; injection R as <-; vm_compute; reflexivity.
Qed.

(** ** C72 *)
(** A compare request is answered compareTrue or compareFalse as the equality filter matches the entry named, and changes nothing. *)
Theorem C72_compare : forall lower io sha oc_first pw_first odd_match text depth s salt tag i cs b a v u d,
  i <> 0 -> no_critical cs -> utf8_decode b = Ok u -> parse_dn io u = Ok d ->
  exists fin code m, said text m /\ handle lower io sha oc_first pw_first odd_match text depth s salt (OMessage tag (VInt i) (request_obj (Compare b a v)) cs) = Ok (s, [fin]) /\
    (sane i (CompareResponse (mkResult code [] m)) -> sends fin i (CompareResponse (mkResult code [] m))) /\
    forall r, lookup lower depth (v_heap s) (v_root s) d = r ->
    match r with
    | Ok c => forall n, nth_error (v_heap s) c = Some n -> forall t, matches lower (n_entry n) (FEq a v) = Ok t -> code = if t then 6 else 5
    | Err (ELdap c) => code = c
    | Err _ => code = 80
    end.
Proof. exact compare_spec. Qed.
Print Assumptions C72_compare.
(** A modify request applies the modifications in turn to the entry named, and to nothing else; the response tells how that ended. *)
Theorem C72_modify : forall lower io sha oc_first pw_first odd_match text depth s salt tag i cs b ms u d,
  i <> 0 -> no_critical cs -> utf8_decode b = Ok u -> parse_dn io u = Ok d -> Forall (fun m => exists k, kind_of_mod (m_op m) k) ms ->
  exists ds fin o s', Forall2 is_mod ms ds /\
    handle lower io sha oc_first pw_first odd_match text depth s salt (OMessage tag (VInt i) (request_obj (Modify b ms)) cs) = Ok (s', [fin]) /\
    (exists m, said text m /\ (sane i (ModifyResponse (mkResult (told o) [] m)) -> sends fin i (ModifyResponse (mkResult (told o) [] m)))) /\
    match lookup lower depth (v_heap s) (v_root s) d with
    | Ok r => forall n, nth_error (v_heap s) r = Some n ->
        o = snd (patch_all lower ds (n_entry n)) /\ s' = set_heap s (set_nth r (set_entry n (fst (patch_all lower ds (n_entry n)))) (v_heap s))
    | Err x => o = Err x /\ s' = s
    end.
Proof. exact modify_spec. Qed.
Print Assumptions C72_modify.
(** A modifyDN request moves the entry named to the new RDN below the new superior, or below its own
    parent's DN, unless the old RDN is to be kept. *)
Theorem C72_modify_dn : forall lower io sha oc_first pw_first odd_match text depth s salt tag i cs b nb (del : bool) ns u d t nrd sup,
  i <> 0 -> no_critical cs -> utf8_decode b = Ok u -> parse_dn io u = Ok d -> utf8_decode nb = Ok t -> parse_rdn io t = Ok nrd ->
  match ns with None => sup = tl d | Some sb => exists x, utf8_decode sb = Ok x /\ parse_dn io x = Ok sup end ->
  exists fin o s', handle lower io sha oc_first pw_first odd_match text depth s salt (OMessage tag (VInt i) (request_obj (ModifyDN b nb del ns)) cs) = Ok (s', [fin]) /\
    (exists m, said text m /\ (sane i (ModifyDNResponse (mkResult (told o) [] m)) -> sends fin i (ModifyDNResponse (mkResult (told o) [] m)))) /\
    if del then
      match lookup lower depth (v_heap s) (v_root s) d with
      | Ok r => o = snd (move lower depth (v_heap s) r (nrd :: sup)) /\ s' = set_heap s (fst (move lower depth (v_heap s) r (nrd :: sup)))
      | Err x => o = Err x /\ s' = s
      end
    else told o = 53 /\ s' = s.
Proof. exact modify_dn_spec. Qed.
Print Assumptions C72_modify_dn.
(** In any conversation of adds and deletes with a new directory, the responses and the directory
    afterwards are those of a map from DNs to attributes (as in C31, for RDNs whose spelling is consistent). *)
Theorem C72_server_is_map_partial : forall lower io sha oc_first pw_first odd_match text depth (C : rdn -> Prop) (rt : dn) (a0 : attrs)
    (ms : list (Z * request * bytes)) (s : srv),
  consistent lower C -> v_root s = 0%nat -> v_heap s = start lower rt a0 ->
  Forall (fun m => fst (fst m) <> 0 /\ readable io (snd (fst m)) /\ forall h, asks io (snd (fst m)) h -> hop_ok C depth h) ms ->
  exists hs w s', Forall2 (fun m h => asks io (snd (fst m)) h) ms hs /\
    serve lower io sha oc_first pw_first odd_match text depth s (map (fun m => (message_obj (fst (fst m)) (request_obj (snd (fst m))) None, snd m)) ms) = (s', w, None) /\
    let (M, os) := spec_hops lower rt hs [(rt, a0)] in
    Forall2 (fun m (oe : res unit * sevent) => tells text (fst (fst m)) (snd (fst m)) (fst oe) (snd oe)) ms (combine os w) /\ length os = length w /\
    forall d, (length d < depth)%nat ->
      match find (fun x => dn_eqb lower (fst x) d) M with
      | Some (d', a') => exists r e, lookup lower depth (v_heap s') 0%nat d = Ok r /\ entry_at (v_heap s') r e /\ e_dn e = d' /\ same_dn lower d' d /\ e = new_entry lower d' a'
      | None => lookup lower depth (v_heap s') 0%nat d = Err (ELdap 32)
      end.
Proof.
  intros lower io sha oc_first pw_first odd_match text depth C rt a0 ms s CC R H F.
  destruct (hops_served lower io sha oc_first pw_first odd_match text depth ms s R) as (hs & w & A & P).
  { eapply Forall_impl; [|exact F]. cbn. intros m (F1 & F2 & _). auto. }
  assert (HO : Forall (hop_ok C depth) hs).
  { clear - F A. induction A as [|m h ms hs A _ IH]; [constructor|]. inversion F as [|x y (_ & _ & F1) F2]; subst. constructor; auto. }
  pose proof (history lower C CC rt a0 depth hs HO) as HI. rewrite H in P.
  destruct (do_hops lower depth hs (start lower rt a0)) as (h', os). destruct (spec_hops lower rt hs [(rt, a0)]) as (M, os') eqn:SP. destruct HI as (-> & HI).
  destruct P as (S & T & L). exists hs, w, (set_heap s h'). split; [exact A|]. split; [exact S|]. rewrite SP. split; [exact T|]. split; [exact L|].
  intros d D. specialize (HI d D). unfold at_dn in HI. destruct (find (fun x => dn_eqb lower (fst x) d) M) as [(d', a')|]; [|exact HI].
  destruct HI as (r & E & N & SD). exists r, (new_entry lower d' a'). split; [exact E|]. split; [exact N|]. auto.
Qed.
Print Assumptions C72_server_is_map_partial.
Definition sv_new : srv := mkSrv (start ascii_lower sv_com []) 0%nat None.
Definition sv_ms : list (Z * request * bytes) :=
  [(1, AddReq (B "ou=a,dc=com") [(B "ou", [B "a"]); (B "objectClass", [B "top"; B "x"]); (B "ou", [B "b"])], []);
   (2, AddReq (B "cn=x, ou=a,dc=com") [(B "cn", [B "x"])], []); (3, Delete (B "OU=A,dc=com"), []); (4, Delete (B "cn=x,ou=a,dc=com"), [])].
Example C72_case : v_heap sv_new = start ascii_lower sv_com [] /\ Forall (fun m => fst (fst m) <> 0 /\ readable sv_io (snd (fst m))) sv_ms /\
  (exists h b1 b2 b4, sv_serve sv_new (map (fun m => (message_obj (fst (fst m)) (request_obj (snd (fst m))) None, snd m)) sv_ms) =
   (set_heap sv_new h, [SWrite (VInt 1) (response_obj (AddResponse (mkResult 0 [] []))) b1; SWrite (VInt 2) (response_obj (AddResponse (mkResult 0 [] []))) b2;
     SDropped EType; SWrite (VInt 4) (response_obj (DeleteResponse (mkResult 0 [] []))) b4], None)) /\
  (exists b, sv_handle sv_0 [] (sv_msg 7 (request_obj (Compare (B "cn=x,ou=a,dc=com") (B "sn") (B "Y")))) = Ok (sv_0, [SWrite (VInt 7) (response_obj (CompareResponse (mkResult 6 [] []))) b])).
Proof.
  split; [reflexivity|]. split.
  - apply Forall_cons; [split; [discriminate|]; do 3 eexists; split; [vm_compute; reflexivity|split; vm_compute; reflexivity]|].
    apply Forall_cons; [split; [discriminate|]; do 3 eexists; split; [vm_compute; reflexivity|split; vm_compute; reflexivity]|].
    apply Forall_cons; [split; [discriminate|]; do 2 eexists; split; vm_compute; reflexivity|].
    apply Forall_cons; [split; [discriminate|]; do 2 eexists; split; vm_compute; reflexivity|]. apply Forall_nil.
  - split; [do 4 eexists; vm_compute; reflexivity|]. eexists. vm_compute. reflexivity.
Qed.
