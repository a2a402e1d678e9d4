(** Model of setPassword of ldaptor/protocols/ldap/ldapsyntax.py (465-594): the plugins, their order and
    what becomes of their failures; of ldaptor/samba/smbpassword.py; and of loadConfig and useLMhash of
    ldaptor/config.py. Line numbers without a file are those of ldapsyntax.py. *)
From Verif Require Import Base Utf8Model DnModel EntryModel LdapModel LdifModel IdentityModel ConfigModel SyntaxModel.

(** ** The configuration *)
(** What configparser holds: the options of DEFAULT and the sections *)
Record cfg := mkCfg { g_default : list (str * str); g_sections : list (str * list (str * str)) }.
(** A file as configparser reads it: its sections in order with their options; DEFAULT is one of them *)
Definition cfile := list (str * list (str * str)).
(** d[k] = v *)
Fixpoint put {V} (k : str) (v : V) (l : list (str * V)) : list (str * V) :=
  match l with [] => [(k, v)] | (x, w) :: r => if str_eqb k x then (x, v) :: r else (x, w) :: put k v r end.

Section Config.
  (** str.lower, which is optionxform *)
  Variable lower : str -> str.

  (** The options of one section of a file, read on top of those that are there *)
  Definition read_options (new old : list (str * str)) : list (str * str) :=
    fold_left (fun l kv => put (lower (fst kv)) (snd kv) l) new old.
  Definition read_section (c : cfg) (s : str * list (str * str)) : cfg :=
    if str_eqb (fst s) (S_ "DEFAULT") then mkCfg (read_options (snd s) (g_default c)) (g_sections c)
    else mkCfg (g_default c)
           (put (fst s) (read_options (snd s) (match section (fst s) (g_sections c) with Some o => o | None => [] end)) (g_sections c)).
  (** config.py 121-123, 140-143: DEFAULTS *)
  Definition cfg0 : cfg := mkCfg [] [(S_ "samba", [(S_ "use-lmhash", S_ "no")])].
  (** config.py 133-150: loadConfig(configFiles, reload=True); [files]: those that can be read *)
  Definition load_config (files : list cfile) : cfg := fold_left (fun c f => fold_left read_section f c) files cfg0.
  (** ConfigParser.BOOLEAN_STATES and _convert_to_boolean *)
  Definition to_boolean (v : str) : res bool :=
    let v := lower v in
    if existsb (str_eqb v) [S_ "1"; S_ "yes"; S_ "true"; S_ "on"] then Ok true
    else if existsb (str_eqb v) [S_ "0"; S_ "no"; S_ "false"; S_ "off"] then Ok false
    else Err EValue.
  (** config.py 153-159: useLMhash. configparser's own exceptions are EKey here. *)
  Definition use_lmhash (c : cfg) : res bool :=
    match section (S_ "samba") (g_sections c) with
    | None => Err EKey
    | Some s =>
        match cfg_get lower (s ++ g_default c) (S_ "use-lmhash") with
        | None => Err EKey
        | Some r => do v <- r; to_boolean v
        end
    end.
End Config.

(** ** smbpassword.py *)
Section Smb.
  (** passlib: nthash.hash(password), lmhash.hash(password), encoded as ASCII *)
  Variables passlib_nt passlib_lm : bytes -> res bytes.
  (** 6-8: nthash *)
  Definition nthash (password : bytes) : res bytes := do h <- passlib_nt (firstn 128 password); Ok (map upper_byte h).
  (** 11-18: lmhash_locked *)
  Definition lmhash_locked : bytes := repeat (z2b 88) 32.
  (** 21-32: lmhash; [use] is what useLMhash gives *)
  Definition lmhash (use : res bool) (password : bytes) : res bytes :=
    do u <- use;
    if negb u then Ok lmhash_locked else do h <- passlib_lm password; Ok (map upper_byte h).
End Smb.

(** ** setPassword *)
(** 465-467, 502-504: the plugins of the class itself; those of subclasses are not modelled *)
Inductive plugin := PExt | PSamba.
Definition plugin_priority (p : plugin) : Z := match p with PExt => 0 | PSamba => 20 end.
(** 586-588: dir() gives the names in order; then by priority *)
Definition plugins : list plugin := sort_by (fun a b => plugin_priority a <=? plugin_priority b) [PExt; PSamba].

(** 38-42 PasswordSetAborted, or the failure of a plugin *)
Inductive pwerr := PwAborted | PwFail (x : exn).
(** How the Deferred of setPassword ends: with the entry, with PasswordSetAggregateError (15-35) or
    with another exception *)
Inductive pwend := PwDone | PwAggregate (l : list (plugin * pwerr)) | PwRaised (x : exn).
(** The answer that is waited for *)
Inductive pwait := WExt | WFetch (q : sres) | WCommit.
(** [p_results]: the results, None for (True, None); [p_todo]: the names left *)
Record pws := mkPws {
  p_ent : cent; p_results : list (option pwerr); p_todo : list plugin; p_wait : option pwait; p_sent : list obj; p_end : option pwend }.

(** 549-551: fail.trap(LDAPException, DNNotPresentError); LDAPClientConnectionLostException
    (ldapclient.py 10-12, ELostConn in ClientModel) is an LDAPException *)
Definition trapped (x : exn) : bool :=
  match x with ELdap _ => true | EUser n => (n =? 43) || (n =? 30) | _ => false end.

Section SetPassword.
  Variable lower : str -> str.                   (** str.lower() *)
  Variable upper : str -> str.                   (** str.upper() *)
  Variable io : Z -> Z -> res Z.                 (** int(two characters, 16), see DnModel *)
  Variable oc_first : bool.                      (** iteration order of a set of keys, see LdifModel *)
  Variables nt lm : bytes -> res bytes.          (** smbpassword.nthash, smbpassword.lmhash *)
  Variable complete : bool.                      (** self.complete; a fetch of named attributes does not set it *)
  Variable new : bytes.                          (** newPasswd *)

  Definition w_ent (c : cent) (s : pws) := mkPws c (p_results s) (p_todo s) (p_wait s) (p_sent s) (p_end s).
  Definition w_wait (w : option pwait) (s : pws) := mkPws (p_ent s) (p_results s) (p_todo s) w (p_sent s) (p_end s).
  Definition w_todo (l : list plugin) (s : pws) := mkPws (p_ent s) (p_results s) l (p_wait s) (p_sent s) (p_end s).
  Definition w_send (l : list obj) (s : pws) := mkPws (p_ent s) (p_results s) (p_todo s) (p_wait s) (p_sent s ++ l) (p_end s).
  Definition w_push (r : option pwerr) (s : pws) := mkPws (p_ent s) (p_results s ++ [r]) (p_todo s) (p_wait s) (p_sent s) (p_end s).
  Definition w_end (x : pwend) (s : pws) := mkPws (p_ent s) (p_results s) (p_todo s) (p_wait s) (p_sent s) (Some x).

  (** s.upper() of text and octets *)
  Definition pv_upper (v : pyval) : pyval := match v with PStr s => PStr (upper s) | PBytes b => PBytes (map upper_byte b) end.
  (** 524-530: the style of the account: Some true for sambaAccount, Some false for sambaSamAccount *)
  Definition samba_style (c : cent) : res (option bool) :=
    do _ <- check c;
    do o <- find_key lower (PStr (S_ "objectClass")) (y_entry c);
    do l <- mapR (fun v => to_bytes (pv_upper v)) (match o with Some a => s_vals a | None => [] end);
    Ok (if existsb (bytes_eqb (B "SAMBAACCOUNT")) l then Some true
        else if existsb (bytes_eqb (B "SAMBASAMACCOUNT")) l then Some false else None).
  (** 469-500: setPassword_Samba. None: a request was sent and its answer is waited for *)
  Definition samba_set (net : option exn) (old : bool) (s : pws) : pws * option (res unit) :=
    match (do _ <- check (p_ent s); do n <- nt new; do l <- lm new; Ok (n, l)) with
    | Err x => (s, Some (Err x))
    | Ok (n, l) =>
        match c_samba lower old (PBytes n) (PBytes l) net (p_ent s) with
        | (c, sent, Err x) => (w_send sent (w_ent c s), Some (Err x))
        | (c, [], Ok _) => (w_ent c s, Some (Ok tt))
        | (c, sent, Ok _) => (w_wait (Some WCommit) (w_send sent (w_ent c s)), None)
        end
    end.
  (** 523-532: the account has its object classes *)
  Definition samba_known (net : option exn) (s : pws) : pws * option (res unit) :=
    match samba_style (p_ent s) with
    | Err x => (s, Some (Err x))
    | Ok None => (s, Some (Ok tt))
    | Ok (Some old) => samba_set net old s
    end.
  (** 506-532: setPasswordMaybe_Samba *)
  Definition samba_maybe (net : option exn) (s : pws) : pws * option (res unit) :=
    match (if complete then Ok true else do _ <- check (p_ent s); has_key lower (PStr (S_ "objectClass")) (y_entry (p_ent s))) with
    | Err x => (s, Some (Err x))
    | Ok true => samba_known net s
    | Ok false =>
        match c_fetch [PStr (S_ "objectClass")] net (p_ent s) with
        | (sent, Err x) => (w_send sent s, Some (Err x))
        | (sent, Ok _) => (w_wait (Some (WFetch (mkSres [] None))) (w_send sent s), None)
        end
    end.
  (** 561-562: the plugin named is called *)
  Definition pw_begin (net : option exn) (p : plugin) (s : pws) : pws * option (res unit) :=
    match p with
    | PExt =>
        match c_set_password new net (p_ent s) with
        | (sent, Err x) => (w_send sent s, Some (Err x))
        | (sent, Ok _) => (w_wait (Some WExt) (w_send sent s), None)
        end
    | PSamba => samba_maybe net s
    end.
  (** 546-551, 565-567: its result is added, or an exception ends it all *)
  Definition pw_record (r : res unit) (s : pws) : pws :=
    match r with
    | Ok _ => w_push None s
    | Err x => if trapped x then w_push (Some (PwFail x)) s else w_end (PwRaised x) s
    end.
  (** 534-544: _cbSetPassword *)
  Definition pw_finish (s : pws) : pws :=
    match flat_map (fun nr => match snd nr with Some e => [(fst nr, e)] | None => [] end) (combine plugins (p_results s)) with
    | [] => w_end PwDone s
    | l => w_end (PwAggregate l) s
    end.
  Definition failing (s : pws) : bool := match rev (p_results s) with Some _ :: _ => true | _ => false end.
  (** 553-572: _setPasswordAll *)
  Fixpoint pw_all (net : option exn) (todo : list plugin) (s : pws) : pws :=
    match todo with
    | [] => pw_finish (w_todo [] s)
    | p :: rest =>
        if failing s then pw_all net rest (w_push (Some PwAborted) s)
        else
          match pw_begin net p s with
          | (s', None) => w_todo rest s'
          | (s', Some r) =>
              let s2 := pw_record r s' in
              match p_end s2 with Some _ => s2 | None => pw_all net rest s2 end
          end
    end.
  (** 574-594: setPassword *)
  Definition pw_start (net : option exn) (c : cent) : pws := pw_all net plugins (mkPws c [] [] None [] None).

  (** The plugin that waited has ended *)
  Definition pw_resume (net : option exn) (r : res unit) (s : pws) : pws :=
    let s2 := pw_record r (w_wait None s) in
    match p_end s2 with Some _ => s2 | None => pw_all net (p_todo s2) s2 end.
  (** What comes: a response, or the Deferred of the request fails *)
  Inductive pwevent := PwMsg (msg : obj) | PwLost (x : exn).
  (** [net]: whether client.send raises, should this event make it send *)
  Definition pw_step (s : pws) (e : option exn * pwevent) : pws :=
    let net := fst e in
    match p_wait s with
    | None => s
    | Some w =>
        match w, snd e with
        | _, PwLost x => pw_resume net (Err x) s
        | WExt, PwMsg msg => pw_resume net (set_password_done msg) s
        | WCommit, PwMsg msg => match commit_success lower oc_first msg (p_ent s) with (c, r) => pw_resume net r (w_ent c s) end
        | WFetch q, PwMsg msg =>
            let q' := search_run lower io false [msg] q in
            match q_end q' with
            | None => w_wait (Some (WFetch q')) s
            | Some (Err x) => pw_resume net (Err x) s
            | Some (Ok _) =>
                match fetch_done lower oc_first (q_found q') [PStr (S_ "objectClass")] (p_ent s) with
                | (c, Err x) => pw_resume net (Err x) (w_ent c s)
                | (c, Ok _) =>
                    match samba_maybe net (w_wait None (w_ent c s)) with
                    | (s', None) => s'
                    | (s', Some r) => pw_resume net r s'
                    end
                end
            end
        end
    end.
  Definition pw_run (l : list (option exn * pwevent)) (s : pws) : pws := fold_left pw_step l s.
End SetPassword.
