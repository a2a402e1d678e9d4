(** Specification of passwords: when a stored value admits a password, and which entries do. *)
From Verif Require Import Base Utf8Model DnModel EntryModel LdifModel PwModel.

(** A stored value (octets) admits a password: it is that password in plain text, or it is the SSHA
    form of that password with some salt. *)
Definition admits (sha : bytes -> bytes) (stored pw : bytes) : Prop :=
  ((~ exists t, stored = B "{SSHA}" ++ t) /\ stored = pw) \/ (exists salt, stored = sshaDigest sha pw salt).

(** An attribute called userPassword, as text or as octets *)
Definition is_password (lower : str -> str) (a : aset) : Prop :=
  match s_key a with
  | PStr s => lower s = lower (S_ "userPassword")
  | PBytes b => lower_bytes b = B "userpassword"
  end.
(** Some value of the entry's userPassword admits the password. *)
Definition entry_admits (sha : bytes -> bytes) (lower : str -> str) (e : entry) (pw : bytes) : Prop :=
  exists a v stored, In a (e_attrs e) /\ is_password lower a /\ In v (s_vals a) /\ to_bytes v = Ok stored /\ admits sha stored pw.
(** Every userPassword value can be read: text that can be encoded, and base64 after "{SSHA}". *)
Definition passwords_readable (lower : str -> str) (e : entry) : Prop :=
  forall a v, In a (e_attrs e) -> is_password lower a -> In v (s_vals a) ->
  exists s, to_bytes v = Ok s /\ (forall t, s = B "{SSHA}" ++ t -> exists raw, b64_decode t = Ok raw).
(** No two keys of the dict are the same name. *)
Definition keys_distinct (lower : str -> str) (e : entry) : Prop := NoDup (map (fun a => lowv lower (s_key a)) (e_attrs e)).
