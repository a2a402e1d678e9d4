(** C14, C78: the login checker. *)
From Verif Require Import Base BaseFacts Utf8Model DnModel DnSpec FilterTextModel FilterTextSpec FilterTextProofs FilterTextMain PropsFilterText IdentityModel.

(** A name that is only data in a filter: not empty, and without asterisk, parentheses, backslash, NUL
    and tab. *)
Definition harmless (u : str) : Prop := u <> [] /\ Forall (fun c => ~ In c [42; 40; 41; 92; 0; 9]) u.
Lemma harmless_text u : harmless u -> value_text u u /\ no_tab u.
Proof.
  intros (N & F). split.
  - split; [exact N|]. rewrite <- (escape_id u) at 2; [apply escape_spells|]. eapply Forall_impl; [|exact F]. intros c H J. apply H. cbn in *. intuition.
  - intros J. rewrite Forall_forall in F. apply (F 9 J). cbn. auto 10.
Qed.
Lemma put_free P u s : ~ In P s -> put P u s = s.
Proof. induction s as [|c s IH]; intros N; [reflexivity|]. unfold put in *. cbn [flat_map]. destruct (Z.eqb_spec c P) as [->|_]; [destruct N; now left|]. cbn [app]. f_equal. apply IH. intros J. apply N. now right. Qed.
Lemma put_app' P w a b : put P w (a ++ b) = put P w a ++ put P w b. Proof. apply flat_map_app. Qed.
Lemma put_mark P w : put P w [P] = w. Proof. unfold put. cbn [flat_map]. rewrite Z.eqb_refl. apply app_nil_r. Qed.
Lemma put_cons P w c s : c <> P -> put P w (c :: s) = c :: put P w s.
Proof. intros N. unfold put. cbn [flat_map]. destruct (Z.eqb_spec c P); [congruence|reflexivity]. Qed.

Lemma percent_put P (MP : marker P) u : forall k s t, ~ In P s -> percent k [P] s = Ok t -> percent k u s = Ok (put P u t).
Proof.
  unfold marker in MP. induction k as [|k IH]; intros s t N; [discriminate|]. cbn [percent]. destruct s as [|c r]; [intros [= <-]; reflexivity|].
  destruct (Z.eqb_spec c 37) as [->|Nc].
  - destruct (lit (S_ "%") r) as [r'|] eqn:E.
    + apply lit_spec in E. subst r. destruct (percent k [P] r') as [t'|] eqn:E'; [|discriminate]. intros [= <-]. rewrite (IH r' t'); [|intros J; apply N; right; now right|exact E']. cbn [bind]. now rewrite put_cons by lia.
    + destruct (lit (S_ "(name)s") r) as [r'|] eqn:E1; [|discriminate]. apply lit_spec in E1. subst r. destruct (percent k [P] r') as [t'|] eqn:E'; [|discriminate]. cbn [bind]. intros Q.
      assert (t = [P] ++ t') as -> by congruence. rewrite (IH r' t'); [|intros J; apply N; right; apply in_app_iff; now right|exact E']. cbn [bind]. now rewrite put_app', put_mark.
  - destruct (percent k [P] r) as [t'|] eqn:E'; [|discriminate]. intros [= <-]. rewrite (IH r t'); [|intros J; apply N; now right|exact E']. cbn [bind]. rewrite put_cons; [reflexivity|]. intros ->. apply N. now left.
Qed.
Lemma format_put P u s t : marker P -> ~ In P s -> format [P] s = Ok t -> format u s = Ok (put P u t).
Proof. intros M. unfold format. now apply percent_put. Qed.

Lemma span_incl p : forall s a b x, span p s = (a, b) -> In x b -> In x s.
Proof. intros s a b x E J. destruct (span_sound p s a b E) as (-> & _). apply in_app_iff. now right. Qed.
Lemma key_incl s v r x : key s = Some (v, r) -> In x r -> In x s.
Proof.
  unfold key. destruct (span _ s) as (k & q) eqn:E. destruct k as [|c k]; [discriminate|]. destruct (lit (S_ ")s") q) as [r'|] eqn:E'; [|discriminate]. intros [= <- <-] J.
  apply lit_spec in E'. eapply span_incl; [exact E|]. subst q. right. now right.
Qed.
Lemma assoc_in k l v : assoc k l = Some v -> exists x, In (x, v) l.
Proof. induction l as [|(x & y) l IH]; [discriminate|]. cbn [assoc]. destruct (str_eqb k x); [intros [= <-]; exists x; now left|]. intros E. destruct (IH E) as (z & J). exists z. now right. Qed.
(** The configured values do not contain the mark. *)
Definition free (P : Z) (sec : list (str * str)) : Prop := forall k v, In (k, v) sec -> ~ In P v.
Lemma interp_put lower P (MP : marker P) u sec : free P sec -> ~ In 37 u -> forall d s t, ~ In P s ->
  interp lower (options [P] sec) d s = Ok t -> interp lower (options u sec) d s = Ok (put P u t).
Proof.
  intros Fr Nu. unfold marker in MP. induction d as [|d IHd]; intros s t N; [discriminate|].
  change (interp lower (options [P] sec) (S d) s) with (walk lower (options [P] sec) (interp lower (options [P] sec) d) (S (length s)) s).
  change (interp lower (options u sec) (S d) s) with (walk lower (options u sec) (interp lower (options u sec) d) (S (length s)) s).
  generalize (S (length s)) as k. intros k. revert s t N.
  induction k as [|k IH]; intros s t N; [discriminate|]. cbn [walk]. destruct s as [|c r]; [intros [= <-]; reflexivity|].
  set (go1 := walk lower (options [P] sec) (interp lower (options [P] sec) d)) in *.
  destruct (Z.eqb_spec c 37) as [->|Nc].
  - destruct (lit (S_ "%") r) as [r'|] eqn:E.
    + apply lit_spec in E. subst r. destruct (go1 k r') as [t'|] eqn:E'; [|discriminate]. intros [= <-]. rewrite (IH r' t'); [|intros J; apply N; right; now right|exact E']. cbn [bind]. now rewrite put_cons by lia.
    + destruct (lit (S_ "(") r) as [r'|] eqn:E1; [|discriminate]. apply lit_spec in E1. subst r. destruct (key r') as [(v & r'')|] eqn:Ek; [|discriminate].
      assert (Nr : ~ In P r'') by (intros J; apply N; right; right; exact (key_incl r' v r'' P Ek J)).
      assert (G : forall x y, options [P] sec (lower v) = Some x -> (if existsb (Z.eqb 37) x then interp lower (options [P] sec) d x else Ok x) = Ok y ->
        exists x', options u sec (lower v) = Some x' /\ (if existsb (Z.eqb 37) x' then interp lower (options u sec) d x' else Ok x') = Ok (put P u y)).
      { intros x y. unfold options at 1 3. destruct (str_eqb (lower v) (S_ "name")).
        - intros [= <-]. cbn [existsb]. destruct (Z.eqb_spec 37 P); [lia|]. cbn [orb]. intros [= <-]. exists u. split; [reflexivity|].
          replace (existsb (Z.eqb 37) u) with false; [now rewrite put_mark|]. symmetry. destruct (existsb (Z.eqb 37) u) eqn:X; [|reflexivity]. apply existsb_exists in X as (z & J & Z0). apply Z.eqb_eq in Z0. subst z. now destruct Nu.
        - intros Ex. destruct (assoc_in _ _ _ Ex) as (kk & J). assert (Nx : ~ In P x) by exact (Fr kk x J). intros Ey. exists x. split; [exact Ex|].
          destruct (existsb (Z.eqb 37) x); [now apply IHd|]. injection Ey as <-. now rewrite put_free. }
      destruct (options [P] sec (lower v)) as [x|] eqn:Ex; [|discriminate].
      destruct (if existsb (Z.eqb 37) x then interp lower (options [P] sec) d x else Ok x) as [y|] eqn:Ey; [|discriminate]. cbn [bind]. destruct (G x y eq_refl Ey) as (x' & -> & ->). cbn [bind].
      destruct (go1 k r'') as [t'|] eqn:E'; [|discriminate]. cbn [bind]. intros [= <-]. rewrite (IH r'' t' Nr E'). cbn [bind]. now rewrite put_app'.
  - destruct (go1 k r) as [t'|] eqn:E'; [|discriminate]. intros [= <-]. rewrite (IH r t'); [|intros J; apply N; now right|exact E']. cbn [bind]. rewrite put_cons; [reflexivity|]. intros ->. apply N. now left.
Qed.

Lemma default_free P : marker P -> ~ In P default_search.
Proof. unfold marker. intros M J. assert (H : forallb (fun c => c <? 256) default_search = true) by (vm_compute; reflexivity). rewrite forallb_forall in H. specialize (H P J). lia. Qed.
Lemma login_text depth lower own auth u t f : u <> [] -> get_identity_search lower own auth u = Ok t -> parse_filter depth (PStr t) = Ok f -> login_filter depth lower own auth u = Ok f.
Proof. intros N E H. unfold login_filter. destruct u; [congruence|]. rewrite E. cbn [bind]. now rewrite H. Qed.

(** C14. A configured template: with any mark as the name it is the text t, and t parses to F. For every
    name that is only data, the checker searches with F, the name in place of the mark. Missing: the
    other names, see below. *)
Theorem C14_identity_partial : forall (depth : nat) (lower : str -> str) (own : option str) (P : Z) (t : str) (F : tf) (u : str),
  marker P -> (forall s, own = Some s -> ~ In P s) -> get_identity_search lower own None [P] = Ok t -> no_tab t -> parse_filter depth (PStr t) = Ok F ->
  harmless u -> login_filter depth lower own None u = Ok (fill P u F).
Proof.
  intros depth lower own P t F u M N E T H Hu. destruct (harmless_text u Hu) as (V & Tu). destruct Hu as (Nu & _). apply login_text with (t := put P u t); [exact Nu| |now apply template].
  unfold get_identity_search in *. destruct own as [s|]; [apply format_put; auto|]. apply format_put; auto using default_free.
Qed.
Print Assumptions C14_identity_partial.
(** The same with the template from the configuration files; there a name must have no percent sign. *)
Theorem C14_config_partial : forall (depth : nat) (lower : str -> str) (sec : list (str * str)) (P : Z) (t : str) (F : tf) (u : str),
  marker P -> free P sec -> get_identity_search lower None (Some sec) [P] = Ok t -> no_tab t -> parse_filter depth (PStr t) = Ok F ->
  harmless u -> ~ In 37 u -> login_filter depth lower None (Some sec) u = Ok (fill P u F).
Proof.
  intros depth lower sec P t F u M Fr E T H Hu N37. destruct (harmless_text u Hu) as (V & Tu). destruct Hu as (Nu & _). apply login_text with (t := put P u t); [exact Nu| |now apply template].
  unfold get_identity_search in *. change (options [P] sec (S_ "identity-search")) with (assoc (S_ "identity-search") sec) in E. change (options u sec (S_ "identity-search")) with (assoc (S_ "identity-search") sec).
  destruct (assoc (S_ "identity-search") sec) as [v|] eqn:Ev.
  - destruct (assoc_in _ _ _ Ev) as (k & J). exact (interp_put lower P M u sec Fr N37 10 v t (Fr k v J) E).
  - apply format_put; auto using default_free.
Qed.
Print Assumptions C14_config_partial.
(** An application that escapes the name first is safe for every name that is not empty and has no tab,
    when the template is its own. *)
Theorem C14_escaped : forall (depth : nat) (lower : str -> str) (own : option str) (P : Z) (t : str) (F : tf) (u : str),
  marker P -> (forall s, own = Some s -> ~ In P s) -> get_identity_search lower own None [P] = Ok t -> no_tab t -> parse_filter depth (PStr t) = Ok F ->
  u <> [] -> no_tab u -> login_filter depth lower own None (escape u) = Ok (fill P u F).
Proof.
  intros depth lower own P t F u M N E T H Nu Tu. apply login_text with (t := put P (escape u) t).
  - intros X. pose proof (escape_spells u) as Sp. rewrite X in Sp. inversion Sp; subst. congruence.
  - unfold get_identity_search in *. destruct own as [s|]; [apply format_put; auto|]. apply format_put; auto using default_free.
  - now apply C13_escaped_value_partial.
Qed.
Print Assumptions C14_escaped.
Definition x_sec : list (str * str) := [(S_ "identity-base", S_ "ou=people,dc=example"); (S_ "class", S_ "(objectClass=%(kind)s)"); (S_ "kind", S_ "person"); (S_ "identity-search", S_ "(&%(Class)s(uid=%(name)s)(note=100%%))")].
Example C14_case :
  harmless (S_ "jo & co.=~<>:|") /\
  get_identity_search ascii_lower (Some (S_ "(&(uid=%(name)s)(o=50%%))")) None [8226] = Ok (S_ "(&(uid=" ++ 8226 :: S_ ")(o=50%))") /\
  login_filter 9 ascii_lower (Some (S_ "(&(uid=%(name)s)(o=50%%))")) None (S_ "jo & co.=~<>:|") = Ok (TAnd [TCmp CEq (S_ "uid") (S_ "jo & co.=~<>:|"); TCmp CEq (S_ "o") (S_ "50%")]) /\
  get_identity_search ascii_lower None (Some x_sec) [8226] = Ok (S_ "(&(objectClass=person)(uid=" ++ 8226 :: S_ ")(note=100%))") /\ free 8226 x_sec /\
  login_filter 9 ascii_lower None (Some x_sec) (S_ "jo") = Ok (TAnd [TCmp CEq (S_ "objectClass") (S_ "person"); TCmp CEq (S_ "uid") (S_ "jo"); TCmp CEq (S_ "note") (S_ "100%")]).
Proof.
  split; [split; [discriminate|]; apply Forall_forall; intros c J K; assert (H : forallb (fun c => negb (existsb (Z.eqb c) [42; 40; 41; 92; 0; 9])) (S_ "jo & co.=~<>:|") = true) by (vm_compute; reflexivity);
    rewrite forallb_forall in H; specialize (H c J); assert (existsb (Z.eqb c) [42; 40; 41; 92; 0; 9] = true) as X by (apply existsb_exists; exists c; split; [exact K|apply Z.eqb_refl]); rewrite X in H; discriminate|]. split; [vm_compute; reflexivity|]. split; [vm_compute; reflexivity|]. split; [vm_compute; reflexivity|].
  split; [|vm_compute; reflexivity]. intros k v J K. assert (H : forallb (fun x => forallb (fun c => c <? 256) (snd x)) x_sec = true) by (vm_compute; reflexivity). rewrite forallb_forall in H. specialize (H (k, v) J). rewrite forallb_forall in H. now specialize (H 8226 K).
Qed.

(** A login name can change the structure of the filter: an asterisk matches everybody, and
    parentheses add conditions, here with the default template. *)
Theorem C14_refuted : exists (u w : str) (f g : tf),
  login_filter 9 ascii_lower None None (S_ "jo") = Ok (TOr [TCmp CEq (S_ "cn") (S_ "jo"); TCmp CEq (S_ "uid") (S_ "jo")]) /\
  login_filter 9 ascii_lower None None u = Ok f /\ f = TOr [TPresent (S_ "cn"); TPresent (S_ "uid")] /\
  login_filter 9 ascii_lower None None w = Ok g /\
  g = TOr [TCmp CEq (S_ "cn") (S_ "x"); TCmp CEq (S_ "role") (S_ "admin"); TCmp CEq (S_ "uid") (S_ "x"); TCmp CEq (S_ "role") (S_ "admin")].
Proof. exists (S_ "*"), (S_ "x)(role=admin"). eexists _, _. repeat (split; [vm_compute; reflexivity|]). reflexivity. Qed.
Print Assumptions C14_refuted.
(** With a template from a configuration file a name can name any option of the section, whose value is
    put in; and a percent sign in a name is an exception other than a refused login. *)
Theorem C14_config_refuted :
  login_filter 9 ascii_lower None (Some x_sec) (S_ "%(identity-base)s") =
    Ok (TAnd [TCmp CEq (S_ "objectClass") (S_ "person"); TCmp CEq (S_ "uid") (S_ "ou=people,dc=example"); TCmp CEq (S_ "note") (S_ "100%")]) /\
  login_filter 9 ascii_lower None (Some x_sec) (escape (S_ "50%")) = Err EInterp.
Proof. split; vm_compute; reflexivity. Qed.
Print Assumptions C14_config_refuted.

(** C78. The checker accepts a login exactly when there is a base, a name that is not empty and makes a
    filter, a search with this filter that finds one entry, and a bind as this entry with the password
    given that the server accepts; and then it gives this entry. *)
Theorem C78_login : forall (base : res str) (find : str -> tf -> res (list str)) (bind_as : str -> str -> res unit)
    (depth : nat) (lower : str -> str) (own : option str) (auth : option (list (str * str))) (name password e : str),
  request_avatar base find bind_as depth lower own auth name password = Ok e <->
  exists b t f, base = Ok b /\ name <> [] /\ get_identity_search lower own auth name = Ok t /\ parse_filter depth (PStr t) = Ok f /\ find b f = Ok [e] /\ bind_as e password = Ok tt.
Proof.
  intros. unfold request_avatar, login_filter, found. split.
  - destruct base as [b|]; [|discriminate]. destruct name as [|c name]; [discriminate|]. destruct (get_identity_search _ _ _ _) as [t|]; [|discriminate]. cbn [bind].
    destruct (parse_filter depth (PStr t)) as [f|x] eqn:Ep.
    + cbn [bind]. destruct (find b f) as [[|e' [|? ?]]|] eqn:Ef; cbn [bind]; try discriminate. destruct (bind_as e' password) as [[]|] eqn:Eb; cbn [bind]; [|discriminate]. intros [= ->].
      exists b, t, f. repeat (split; [first [reflexivity|discriminate|assumption]|]). exact Eb.
    + destruct x; try discriminate. destruct tag as [|p|p]; try discriminate. repeat (destruct p as [p|p|]; try discriminate).
  - intros (b & t & f & -> & N & E & Ep & Ef & Eb). destruct name; [congruence|]. rewrite E. cbn [bind]. rewrite Ep. cbn [bind]. rewrite Ef. cbn [bind]. now rewrite Eb.
Qed.
Print Assumptions C78_login.
(** A server that refuses the password, or finds nobody, makes a refused login. *)
Theorem C78_refused : forall (b : str) (find : str -> tf -> res (list str)) (bind_as : str -> str -> res unit)
    (depth : nat) (lower : str -> str) (own : option str) (auth : option (list (str * str))) (name password e : str) (f : tf) (c : Z),
  login_filter depth lower own auth name = Ok f ->
  (find b f = Ok [] \/ find b f = Ok [e] /\ bind_as e password = Err (ELdap c) /\ (c = 49 \/ c = 53)) ->
  request_avatar (Ok b) find bind_as depth lower own auth name password = Err EUnauthorized.
Proof.
  intros b find bind_as depth lower own auth name password e f c E [H|(H & B & C)]; unfold request_avatar; rewrite E; cbn [bind]; rewrite H; [reflexivity|]. cbn [bind found]. rewrite B. cbn [bind login_err]. destruct C as [->| ->]; reflexivity.
Qed.
Print Assumptions C78_refused.
(** Without a base, and without a name, the login is refused, whatever the server would say. *)
Theorem C78_refused_early : forall (base : res str) (find : str -> tf -> res (list str)) (bind_as : str -> str -> res unit)
    (depth : nat) (lower : str -> str) (own : option str) (auth : option (list (str * str))) (name password : str),
  (exists x, base = Err x) \/ name = [] ->
  request_avatar base find bind_as depth lower own auth name password = Err EUnauthorized.
Proof. intros base find bind_as depth lower own auth name password [(x & ->)| ->]; [reflexivity|]. destruct base; reflexivity. Qed.
Print Assumptions C78_refused_early.
(** The password is not looked at: with a server that answers a bind with a name and no password with
    success, as RFC 4513 section 5.1.2 has it, the empty password is a login as anyone. *)
Theorem C78_empty_password_refuted : exists (find : str -> tf -> res (list str)) (bind_as : str -> str -> res unit) (secret : str),
  secret <> [] /\ (forall e p, bind_as e p = Ok tt <-> p = secret \/ p = []) /\
  request_avatar (Ok (S_ "dc=example")) find bind_as 9 ascii_lower None None (S_ "jo") [] = Ok (S_ "uid=jo,dc=example").
Proof.
  exists (fun b f => Ok [S_ "uid=jo,dc=example"]), (fun e p => if str_eqb p (S_ "secret") || str_eqb p [] then Ok tt else Err (ELdap 49)), (S_ "secret"). split; [discriminate|]. split; [|vm_compute; reflexivity].
  intros e p. destruct (str_eqb_spec p (S_ "secret")) as [->|N]; [cbn; intuition|]. cbn [orb]. destruct (str_eqb_spec p []) as [->|N']; [intuition|]. split; [discriminate|intuition].
Qed.
Print Assumptions C78_empty_password_refuted.
Example C78_case :
  let find := fun b f => match f with TOr [TCmp CEq _ u; _] => if str_eqb u (S_ "jo") then Ok [S_ "uid=jo,dc=example"] else Ok [] | _ => Ok [] end in
  let bind_as := fun e p => if str_eqb p (S_ "secret") then Ok tt else Err (ELdap 49) in
  request_avatar (Ok (S_ "dc=example")) find bind_as 9 ascii_lower None None (S_ "jo") (S_ "secret") = Ok (S_ "uid=jo,dc=example") /\
  request_avatar (Ok (S_ "dc=example")) find bind_as 9 ascii_lower None None (S_ "jo") (S_ "x") = Err EUnauthorized /\
  request_avatar (Ok (S_ "dc=example")) find bind_as 9 ascii_lower None None (S_ "mo") (S_ "secret") = Err EUnauthorized /\
  request_avatar (Ok (S_ "dc=example")) find bind_as 9 ascii_lower None None [] (S_ "secret") = Err EUnauthorized /\
  request_avatar (Ok (S_ "dc=example")) find bind_as 9 ascii_lower None None (S_ "(") (S_ "secret") = Err EUnauthorized.
Proof. repeat split; vm_compute; reflexivity. Qed.
