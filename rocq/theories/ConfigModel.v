(** Model of the options and the configuration that say where the directory is: ldaptor/usage.py,
    ldaptor/config.py (LDAPConfig, except getIdentitySearch, which IdentityModel has), and the use
    ldaptor/protocols/ldap/ldapconnector.py makes of them. configparser is not part of the
    repository: a file is its sections in order, each with its options and those of DEFAULT behind. *)
From Verif Require Import Base Utf8Model DnModel FilterTextModel IdentityModel UtilModel.

(** twisted.python.usage.UsageError *)
Definition EUsage : exn := EUser 70.
(** config.MissingBaseDNError, config.py 10-14 *)
Definition EMissingBase : exn := EUser 71.

(** (host, port) of an override; both are text in options and files *)
Definition location := (option str * option str)%type.
(** s.split(c, 1) where c is in s, else None *)
Fixpoint cut (c : Z) (s : str) : option (str * str) :=
  match s with
  | [] => None
  | x :: r => if x =? c then Some ([], r) else match cut c r with Some (a, b) => Some (x :: a, b) | None => None end
  end.

(** What DistinguishedName(magic) is called with here: text or a DN. *)
Inductive dnarg := AText (s : str) | ADn (d : dn).

Section Config.
  (** int(s, 16), see DnModel *)
  Variable io : Z -> Z -> res Z.
  (** str.lower *)
  Variable lower : str -> str.
  Variable hash_str : str -> Z.
  Variable hash_bytes : bytes -> Z.
  (** str.isspace of one character, for str.strip *)
  Variable isspace : Z -> bool.

  (** distinguishedname.py 241-262: DistinguishedName(magic) for text or a DN *)
  Definition to_dn (a : dnarg) : res dn := match a with AText s => parse_dn io s | ADn d => Ok d end.

  (** overrides[dn] = v: the key that is there is kept *)
  Fixpoint over_set {V} (d : dn) (v : V) (o : list (okey * V)) : list (okey * V) :=
    match o with
    | [] => [(KDn d, v)]
    | (k, w) :: r => if okey_match lower hash_str hash_bytes d k then (k, v) :: r else (k, w) :: over_set d v r
    end.

  (** usage.py 37-57: opt_service_location(value); [o] is opts["service-location"]. The colon is
      looked for first, so the DN is never read of a value without one. *)
  Definition opt_location (o : list (okey * location)) (value : str) : res (list (okey * location)) :=
    match cut 58 value with
    | None => Err EUsage
    | Some (base, rest) =>
        match parse_dn io base with
        | Err (EUser 1) => Err EUsage
        | Err x => Err x
        | Ok d =>
            let loc := match cut 58 rest with
                       | Some (host, port) => (Some host, Some port)
                       | None => (Some rest, None)
                       end in
            Ok (over_set d loc o)
        end
    end.
  (** One call of opt_service_location for each --service-location, in order, by usage.Options;
      usage.py 59-61: none gives an empty dict. *)
  Fixpoint opt_locations (o : list (okey * location)) (values : list str) : res (list (okey * location)) :=
    match values with
    | [] => Ok o
    | v :: r => do o' <- opt_location o v; opt_locations o' r
    end.

  (** s.strip() *)
  Fixpoint strip_left (s : str) : str :=
    match s with c :: r => if isspace c then strip_left r else s | [] => [] end.
  Definition strip (s : str) : str := rev (strip_left (rev (strip_left s))).

  (** cfg.get(section, option) with BasicInterpolation; None when there is no such option *)
  Definition cfg_get (sec : list (str * str)) (k : str) : option (res str) :=
    match assoc k sec with
    | Some v => Some (interp lower (fun k => assoc k sec) 10 v)
    | None => None
    end.
  (** config.py 67-71 and 73-77: the option, None when it is empty or not there *)
  Definition cfg_opt (sec : list (str * str)) (k : str) : res (option str) :=
    match cfg_get sec k with
    | None => Ok None
    | Some r => do v <- r; Ok (match v with [] => None | _ => Some v end)
    end.
  Definition service_prefix : str := S_ "service-location ".
  (** config.py 62-81: _loadServiceLocationOverrides *)
  Fixpoint load_overrides (file : list (str * list (str * str))) (o : list (okey * location)) : res (list (okey * location)) :=
    match file with
    | [] => Ok o
    | (name, sec) :: r =>
        match lit service_prefix (lower name) with
        | None => load_overrides r o
        | Some _ =>
            let base := strip (skipn (length service_prefix) name) in
            do host <- cfg_opt sec (S_ "host");
            do port <- cfg_opt sec (S_ "port");
            do d <- parse_dn io base;
            load_overrides r (over_set d (host, port) o)
        end
    end.

  (** config.py 17-45: LDAPConfig; [V] is what the overrides are, a location or a function *)
  Record config V := mkConfig {
    c_base : option dn; c_over : list (okey * V); c_ibase : option dn; c_isearch : option str }.
  Arguments mkConfig {V}. Arguments c_base {V}. Arguments c_over {V}. Arguments c_ibase {V}. Arguments c_isearch {V}.
  Definition opt_dn (a : option dnarg) : res (option dn) :=
    match a with None => Ok None | Some x => do d <- to_dn x; Ok (Some d) end.
  (** config.py 34-38: the loop over the items *)
  Fixpoint own_overrides {V} (l : list (dnarg * V)) (o : list (okey * V)) : res (list (okey * V)) :=
    match l with
    | [] => Ok o
    | (k, v) :: r => do d <- to_dn k; own_overrides r (over_set d v o)
    end.
  (** config.py 24-45: __init__ *)
  Definition new_config {V} (base : option dnarg) (over : option (list (dnarg * V))) (ibase : option dnarg) (isearch : option str) : res (config V) :=
    do b <- opt_dn base;
    do o <- own_overrides (match over with Some l => l | None => [] end) [];
    do i <- opt_dn ibase;
    Ok (mkConfig b o i isearch).
  (** The items of a dict with keys that are DNs (its other keys cannot arise in LDAPConfig). *)
  Fixpoint dn_items {V} (o : list (okey * V)) : list (dnarg * V) :=
    match o with
    | [] => []
    | (KDn d, v) :: r => (ADn d, v) :: dn_items r
    | _ :: r => dn_items r
    end.

  (** config.py 57-60: getServiceLocationOverrides *)
  Definition get_overrides (file : list (str * list (str * str))) (c : config location) : res (list (okey * location)) :=
    do r <- load_overrides file [];
    own_overrides (dn_items (c_over c)) r.

  (** config.py 83-93: copy( **kw ); a keyword that is not given is None here, one given as None is
      [Some None] *)
  Definition copy {V} (c : config V) (base : option (option dnarg)) (over : option (option (list (dnarg * V)))) (ibase : option (option dnarg)) (isearch : option (option str)) : res (config V) :=
    new_config
      (match base with Some x => x | None => option_map ADn (c_base c) end)
      (match over with Some x => x | None => Some (dn_items (c_over c)) end)
      (match ibase with Some x => x | None => option_map ADn (c_ibase c) end)
      (match isearch with Some x => x | None => c_isearch c end).

  (** The section of a file, the first of the name (names are unique in configparser) *)
  Fixpoint section (name : str) (file : list (str * list (str * str))) : option (list (str * str)) :=
    match file with [] => None | (n, s) :: r => if str_eqb name n then Some s else section name r end.
  (** config.py 47-55: getBaseDN; its own is a DN, the one from the file is text *)
  Definition get_base {V} (file : list (str * list (str * str))) (c : config V) : res dnarg :=
    match c_base c with
    | Some d => Ok (ADn d)
    | None =>
        match section (S_ "ldap") file with
        | None => Err EMissingBase
        | Some s => match cfg_get s (S_ "base") with None => Err EMissingBase | Some r => do t <- r; Ok (AText t) end
        end
    end.
  (** config.py 95-103: getIdentityBaseDN *)
  Definition get_ibase {V} (file : list (str * list (str * str))) (c : config V) : res dnarg :=
    match c_ibase c with
    | Some d => Ok (ADn d)
    | None =>
        match section (S_ "authentication") file with
        | None => get_base file c
        | Some s => match cfg_get s (S_ "identity-base") with None => get_base file c | Some r => do t <- r; Ok (AText t) end
        end
    end.

  (** int(port) of text; ValueError leaves the text *)
  Variable int_text : str -> option Z.
  (** A port as it is passed on: a number, or text that is none *)
  Inductive portv := PNum (p : Z) | PText (s : str).
  (** ldapconnector.py 75-105: pickServer with an override from options or files. self.domain is
      never None (ldapconnector.py 26). [srv] is what SRVConnector.pickServer returns. *)
  Definition pick (ov : option location) (srv : str * Z) : str * portv :=
    let '(oh, op) := match ov with None => (None, None) | Some x => x end in
    let host := match oh with Some h => h | None => fst srv end in
    let port := match op with
                | Some p => match int_text p with Some n => PNum n | None => PText p end
                | None => PNum (snd srv)
                end in
    (host, port).
  (** The tools: _scripts/search.py 56-64 and the like, with ldapconnector.py 17-24 and 75-105: the
      options, the configuration made of them, and the server for a DN. *)
  Definition server_for (values : list str) (file : list (str * list (str * str))) (d : dn) (srv : str * Z) : res (str * portv) :=
    do o <- opt_locations [] values;
    do c <- new_config None (Some (dn_items o)) None None;
    do t <- get_overrides file c;
    Ok (pick (find_override lower hash_str hash_bytes t d) srv).
End Config.
Arguments mkConfig {V}. Arguments c_base {V}. Arguments c_over {V}. Arguments c_ibase {V}. Arguments c_isearch {V}.

(** pureldap.py 883-885: LDAP_SCOPE_*, by the rest of the name *)
Definition scopes : list (str * Z) := [(S_ "baseObject", 0); (S_ "singleLevel", 1); (S_ "wholeSubtree", 2)].
Fixpoint assocz (k : str) (l : list (str * Z)) : option Z :=
  match l with [] => None | (x, v) :: r => if str_eqb k x then Some v else assocz k r end.
(** usage.py 83-88: the synonyms *)
Definition synonyms : list (str * str) :=
  [(S_ "base", S_ "baseObject"); (S_ "single", S_ "singleLevel"); (S_ "subtree", S_ "wholeSubtree"); (S_ "sub", S_ "wholeSubtree")].
(** usage.py 82-95: postOptions_scope; getattr of another LDAP_SCOPE_ name does not exist *)
Definition scope_option (s : str) : res Z :=
  let s' := match assoc s synonyms with Some x => x | None => s end in
  match assocz s' scopes with Some z => Ok z | None => Err EUsage end.
