(** Specification side of setting passwords: what answers grant, which accounts are Samba accounts, and
    what the configuration files say last. *)
From Verif Require Import Base Utf8Model DnModel EntryModel EntrySpec LdapModel LdapSpec ServerModel ServerSpec LdifModel SyntaxModel SyntaxSpec SetPwModel.

(** The server has done what the password modify operation, or the modification, asked for. *)
Definition ext_granted (m : obj) : Prop := exists t msg nm v, m = OExtResp t (VInt 0) (VBytes []) msg nm v.
Definition mod_granted (m : obj) : Prop := exists t msg cr, m = OResult KModResp t (VInt 0) (VBytes []) msg cr.

(** The search for the object classes of the entry named [b]. *)
Definition ask_classes (b : bytes) : obj := request_obj (Search b 0 0 0 0 false (FPresent (B "objectClass")) [B "objectClass"]).
Definition is_search (o : obj) : Prop := match o with OSearchReq _ _ _ _ _ _ _ _ _ => True | _ => False end.
(** The password modify request for the entry named [b]. *)
Definition ask_password (b new : bytes) (o : obj) : Prop := exists w, o = request_obj (Extended rfc_pw_oid (Some w)) /\ asks_new_password (VBytes w) b new.
(** A modification whose last parts replace both hashes. *)
Definition sets_hashes (old : bool) (b n l : bytes) (o : obj) : Prop :=
  exists ms, o = request_obj (Modify b (ms ++ [mkMod 2 (if old then B "ntPassword" else B "sambaNTPassword") [n]; mkMod 2 (if old then B "lmPassword" else B "sambaLMPassword") [l]])).

(** One of the values of objectClass is [cls], which is in upper case, whatever its case. *)
Definition in_class (lower upper : str -> str) (cls : bytes) (e : entry) : Prop :=
  exists a k v, In a (e_attrs e) /\ spells (PStr (S_ "objectClass")) k /\ lowv lower (s_key a) = lowv lower k /\ In v (s_vals a) /\
    match v with PStr s => utf8_encode (upper s) = Ok cls | PBytes b => map upper_byte b = cls end.
(** No two attributes are called objectClass (as text and as octets). *)
Definition oc_once (lower : str -> str) (e : entry) : Prop :=
  forall a a' k k', In a (e_attrs e) -> In a' (e_attrs e) -> spells (PStr (S_ "objectClass")) k -> spells (PStr (S_ "objectClass")) k' ->
    lowv lower (s_key a) = lowv lower k -> lowv lower (s_key a') = lowv lower k' -> a = a'.
Definition samba_class (old : bool) : bytes := if old then B "SAMBAACCOUNT" else B "SAMBASAMACCOUNT".

(** The last value that the files give to an option of a section (not DEFAULT), None if they do not. *)
Definition settings (lower : str -> str) (files : list cfile) (sec opt : str) : list str :=
  flat_map (fun so => if str_eqb (fst so) sec then flat_map (fun kv => if str_eqb (lower (fst kv)) opt then [snd kv] else []) (snd so) else []) (concat files).
Definition last_setting (lower : str -> str) (files : list cfile) (sec opt : str) : option str :=
  match rev (settings lower files sec opt) with v :: _ => Some v | [] => None end.

(** The failures that are reported with their plugin: an LDAP error, a connection lost, a DN that is not there. *)
Definition ldap_failure (x : exn) : Prop := (exists code, x = ELdap code) \/ x = EUser 30 \/ x = ENoDn.
