(** Model of the password functions of ldaptor/entry.py. *)
From Verif Require Import Base Utf8Model DnModel EntryModel LdifModel.

(** ** base64.encodebytes (Python's base64, not in /repo): lines of 57 octets, each encoded and ended
    with a newline. [fuel] bounds the number of lines. *)
Fixpoint encode_lines (fuel : nat) (s : bytes) : bytes :=
  match fuel with
  | O => []
  | S f =>
      match s with
      | [] => []
      | _ => b64_encode (firstn 57 s) ++ [NL] ++ encode_lines f (skipn 57 s)
      end
  end.
Definition encodebytes (s : bytes) : bytes := encode_lines (length s) s.
(** bytes.rstrip(): space, tab, newline, carriage return, vertical tab, form feed *)
Definition is_space (b : byte) : bool := let z := b2z b in (z =? 32) || ((9 <=? z) && (z <=? 13)).
Fixpoint rstrip (s : bytes) : bytes :=
  match s with
  | [] => []
  | c :: r => match rstrip r with [] => if is_space c then [] else [c] | r' => c :: r' end
  end.

Section Pw.
  (** hashlib.sha1(x).digest(): any function *)
  Variable sha : bytes -> bytes.
  Variable lower : str -> str.
  (** entry.py 40: iteration order of the set _user_password_keys *)
  Variable str_first : bool.
  Definition pw_keys : list pyval :=
    if str_first then [PStr (S_ "userPassword"); PBytes (B "userPassword")]
    else [PBytes (B "userPassword"); PStr (S_ "userPassword")].

  (** entry.py 16-32: sshaDigest(passphrase, salt) *)
  Definition sshaDigest (pass salt : bytes) : bytes :=
    B "{SSHA}" ++ rstrip (encodebytes (sha (pass ++ salt) ++ salt)).

  (** entry.py 230-240: one value of the attribute: does it accept the password? *)
  Definition accepts1 (pw : bytes) (v : pyval) : res bool :=
    do digest <- to_bytes v;
    if starts_with (B "{SSHA}") digest then
      do raw <- b64_decode (skipn 6 digest);
      Ok (bytes_eqb (sshaDigest pw (skipn 20 raw)) digest)
    else Ok (bytes_eqb digest pw).
  Fixpoint any_accepts (pw : bytes) (vs : list pyval) : res bool :=
    match vs with
    | [] => Ok false
    | v :: r => do b <- accepts1 pw v; if b then Ok true else any_accepts pw r
    end.
  (** entry.py 226-241: the loop of _bind over the keys *)
  Fixpoint bind_keys (pw : bytes) (ks : list pyval) (e : entry) : res bool :=
    match ks with
    | [] => Ok false
    | k :: r => do vs <- get_values lower k e; do b <- any_accepts pw vs; if b then Ok true else bind_keys pw r e
    end.
  (** entry.py 226-241: _bind(password), the password already bytes: LDAPInvalidCredentials, another
      exception, or success *)
  Definition EInvalidCredentials : exn := ELdap 49.
  Definition entry_bind (pw : bytes) (e : entry) : res unit :=
    do b <- bind_keys pw pw_keys e; if b then Ok tt else Err EInvalidCredentials.

  (** entry.py 282-292: setPassword(newPasswd, salt); the "else" of the loop always runs *)
  Fixpoint set_keys (crypt : bytes) (ks : list pyval) (e : entry) : res entry :=
    match ks with
    | [] => Ok (setitem lower (PBytes (B "userPassword")) [PBytes crypt] e)
    | k :: r => do h <- has_key lower k e; set_keys crypt r (if h then setitem lower k [PBytes crypt] e else e)
    end.
  Definition setPassword (new salt : bytes) (e : entry) : res entry := set_keys (sshaDigest new salt) pw_keys e.
End Pw.
