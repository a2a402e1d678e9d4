(** Model of the identity search and the login checker: ldaptor/config.py, LDAPConfig.getIdentitySearch,
    and ldaptor/checkers.py, LDAPBindingChecker. User names are str (bytes would be formatted as their
    repr()). configparser is not part of the repository; BasicInterpolation is modelled from the
    source in Python 3.11, and config.loadConfig needs a Python before 3.12 (SafeConfigParser). *)
From Verif Require Import Base Utf8Model DnModel FilterTextModel.

(** KeyError, TypeError or ValueError, or a conversion that is not modelled *)
Definition EFormat : exn := EUser 51.
(** configparser.InterpolationError *)
Definition EInterp : exn := EUser 52.
(** twisted.cred.error.UnauthorizedLogin *)
Definition EUnauthorized : exn := EUser 53.

(** [s % {"name": name}]. Only %% and %(name)s are modelled. *)
Fixpoint percent (fuel : nat) (name s : str) : res str :=
  match fuel with
  | O => Err EFuel
  | S k =>
      match s with
      | [] => Ok []
      | c :: r =>
          if c =? 37 then
            match lit (S_ "%") r with
            | Some r' => do t <- percent k name r'; Ok (37 :: t)
            | None =>
                match lit (S_ "(name)s") r with
                | Some r' => do t <- percent k name r'; Ok (name ++ t)
                | None => Err EFormat
                end
            end
          else do t <- percent k name r; Ok (c :: t)
      end
  end.
Definition format (name s : str) : res str := percent (S (length s)) name s.

Section Interp.
  (** str.lower, which is optionxform *)
  Variable lower : str -> str.
  (** the map of the options: vars, then the section, then DEFAULT *)
  Variable look : str -> option str.
  (** _KEYCRE: %\(([^)]+)\)s, after the "%(" *)
  Definition key (s : str) : option (str * str) :=
    let (k, r) := span (fun c => negb (c =? 41)) s in
    match k, lit (S_ ")s") r with _ :: _, Some r' => Some (k, r') | _, _ => None end.
  (** configparser.BasicInterpolation._interpolate_some, the loop; [deeper] is the recursive call.
      Characters are taken one by one instead of up to the next "%". *)
  Fixpoint walk (deeper : str -> res str) (fuel : nat) (rest : str) : res str :=
    match fuel with
    | O => Err EFuel
    | S k =>
        match rest with
        | [] => Ok []
        | c :: r =>
            if c =? 37 then
              match lit (S_ "%") r with
              | Some r' => do t <- walk deeper k r'; Ok (37 :: t)
              | None =>
                  match lit (S_ "(") r with
                  | Some r' =>
                      match key r' with
                      | Some (v, r'') =>
                          match look (lower v) with
                          | Some x =>
                              do t1 <- (if existsb (Z.eqb 37) x then deeper x else Ok x);
                              do t2 <- walk deeper k r''; Ok (t1 ++ t2)
                          | None => Err EInterp
                          end
                      | None => Err EInterp
                      end
                  | None => Err EInterp
                  end
              end
            else do t <- walk deeper k r; Ok (c :: t)
        end
    end.
  (** The same function; [depth] is MAX_INTERPOLATION_DEPTH less the levels above. *)
  Fixpoint interp (depth : nat) (rest : str) : res str :=
    match depth with O => Err EInterp | S d => walk (interp d) (S (length rest)) rest end.
End Interp.

(** dict lookup *)
Fixpoint assoc (k : str) (l : list (str * str)) : option str :=
  match l with [] => None | (x, v) :: r => if str_eqb k x then Some v else assoc k r end.
(** _unify_values(section, vars={"name": name}) *)
Definition options (name : str) (sec : list (str * str)) (k : str) : option str :=
  if str_eqb k (S_ "name") then Some name else assoc k sec.
(** config.py 105-120: getIdentitySearch(name). [own]: self.identitySearch; [auth]: the options of
    the section "authentication" of the configuration files with those of DEFAULT behind, None when
    there is no such section. *)
Definition default_search : str := S_ "(|(cn=%(name)s)(uid=%(name)s))".
Definition get_identity_search (lower : str -> str) (own : option str) (auth : option (list (str * str))) (name : str) : res str :=
  match own with
  | Some t => format name t
  | None =>
      match auth with
      | Some sec =>
          match options name sec (S_ "identity-search") with
          | Some v => interp lower (options name sec) 10 v
          | None => format name default_search
          end
      | None => format name default_search
      end
  end.

(** checkers.py 67-75: requestAvatarId, up to the filter *)
Definition login_filter (depth : nat) (lower : str -> str) (own : option str) (auth : option (list (str * str))) (name : str) : res tf :=
  match name with
  | [] => Err EUnauthorized
  | _ =>
      do t <- get_identity_search lower own auth name;
      match parse_filter depth (PStr t) with Err (EUser 50) => Err EUnauthorized | x => x end
  end.

Section Login.
  (** the configured base (getIdentityBaseDN), the search for at most one entry below it, giving the
      DNs found, and the bind; each with the exception it may raise. Connecting is part of the search. *)
  Variable base : res str.
  Variable find : str -> tf -> res (list str).
  Variable bind_as : str -> str -> res unit.
  (** checkers.py 37-46: _found and _valid *)
  Definition found (results : list str) (password : str) : res str :=
    match results with
    | [] => Err EUnauthorized
    | [e] => do _ <- bind_as e password; Ok e
    | _ => Err EAssert
    end.
  (** checkers.py 81-88: _err *)
  Definition login_err (x : exn) : exn :=
    match x with ELdap c => if (c =? 49) || (c =? 53) then EUnauthorized else x | _ => x end.
  (** checkers.py 58-91: requestAvatarId(credentials) *)
  Definition request_avatar (depth : nat) (lower : str -> str) (own : option str) (auth : option (list (str * str))) (name password : str) : res str :=
    match base with
    | Err _ => Err EUnauthorized
    | Ok b =>
        do f <- login_filter depth lower own auth name;
        match (do rs <- find b f; found rs password) with
        | Err x => Err (login_err x)
        | Ok e => Ok e
        end
    end.
End Login.
