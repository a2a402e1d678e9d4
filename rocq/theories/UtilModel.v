(** Models of the small modules: numberalloc.py, dns.py, autofill/samba*.py, ldapconnector.py,
    ldaperrors.py. *)
From Coq Require Import Decimal DecimalZ.
From Verif Require Import Base Utf8Model DnModel.

(** ** Decimal text *)
(** str(int) and "%d" % int *)
Fixpoint uint_str (u : uint) : str :=
  match u with
  | Nil => []
  | D0 r => 48 :: uint_str r | D1 r => 49 :: uint_str r | D2 r => 50 :: uint_str r | D3 r => 51 :: uint_str r | D4 r => 52 :: uint_str r
  | D5 r => 53 :: uint_str r | D6 r => 54 :: uint_str r | D7 r => 55 :: uint_str r | D8 r => 56 :: uint_str r | D9 r => 57 :: uint_str r
  end.
Definition dec (z : Z) : str :=
  match Z.to_int z with Decimal.Pos u => uint_str u | Decimal.Neg u => 45 :: uint_str u end.
Fixpoint str_uint (s : str) : option uint :=
  match s with
  | [] => Some Nil
  | c :: r =>
      match str_uint r with
      | None => None
      | Some u =>
          if c =? 48 then Some (D0 u) else if c =? 49 then Some (D1 u) else if c =? 50 then Some (D2 u) else if c =? 51 then Some (D3 u)
          else if c =? 52 then Some (D4 u) else if c =? 53 then Some (D5 u) else if c =? 54 then Some (D6 u) else if c =? 55 then Some (D7 u)
          else if c =? 56 then Some (D8 u) else if c =? 57 then Some (D9 u) else None
      end
  end.
(** int(str) on ASCII digits with at most one minus sign in front; what int() does with other text
    (spaces, underscores, other digits, errors) is the parameter [io]. *)
Definition py_int (io : str -> res Z) (s : str) : res Z :=
  match s with
  | [] => Err EValue
  | 45 :: (_ :: _) as r => match str_uint (tl s) with Some u => Ok (Z.of_int (Decimal.Neg u)) | None => io s end
  | _ => match str_uint s with Some u => Ok (Z.of_int (Decimal.Pos u)) | None => io s end
  end.

(** ** numberalloc.py *)
(** [used] says whether the search made by ldapGuesser.guess (43-52) finds an entry. *)
Section Guess.
  Variable used : Z -> bool.
  (** numberalloc.py 20-37: _nextGuess(found, lastGuess), called for the guess [last]; the Deferreds
      are taken as fired. [fuel] bounds the number of guesses. *)
  Fixpoint next_guess (fuel : nat) (mn : Z) (mx : option Z) (last : Z) : res Z :=
    match fuel with
    | O => Err EFuel
    | S f =>
        let mn' := if used last then last else mn in
        let mx' := if used last then mx else Some last in
        match (match mx' with Some m => if (m =? mn') || (m =? mn' + 1) then Some m else None | None => None end) with
        | Some m => Ok m
        | None =>
            let m := match mx' with Some m => m | None => mn' + 1000 end in
            next_guess f mn' mx' ((m + mn') / 2)
        end
    end.
  (** numberalloc.py 7-18: __init__ and startGuessing *)
  Definition start_guessing (fuel : nat) (mn mx : option Z) : res Z :=
    let m := match mn with Some m => m | None => 0 end in next_guess fuel m mx m.
End Guess.

(** ** dns.py *)
(** dns.py 12-18: aton_numbits(num) *)
Fixpoint aton_loop (k : nat) (n : Z) : Z :=
  match k with O => n | S k' => aton_loop k' (Z.lor (Z.shiftr n 1) (2 ^ 31)) end.
Definition aton_numbits (num : Z) : Z := aton_loop (Z.to_nat num) 0.
(** socket.inet_ntoa of 4 octets, and struct.pack("!I", n), which refuses what is not 32 bits *)
Definition quad (n : Z) : list Z := [n / 2 ^ 24 mod 256; n / 2 ^ 16 mod 256; n / 2 ^ 8 mod 256; n mod 256].
Fixpoint join_dots (l : list str) : str :=
  match l with [] => [] | [s] => s | s :: r => s ++ 46 :: join_dots r end.
(** dns.py 30-33: ntoa(n) *)
Definition ntoa (n : Z) : res str :=
  if (0 <=? n) && (n <? 2 ^ 32) then Ok (join_dots (map dec (quad n))) else Err (EUser 4).
(** str.split(".") *)
Fixpoint split_dots (s : str) : list str :=
  match s with
  | [] => [[]]
  | c :: r => if c =? 46 then [] :: split_dots r
              else match split_dots r with p :: ps => (c :: p) :: ps | [] => [[c]] end
  end.
(** One part of a dotted address, written as inet_ntoa writes it. *)
Definition octet (s : str) : option Z :=
  match str_uint s with
  | Some u => let z := Z.of_uint u in if str_eqb (dec z) s && (0 <=? z) && (z <=? 255) then Some z else None
  | None => None
  end.
(** dns.py 7-9: aton_octets(ip): socket.inet_aton on a dotted quad; what it makes of other text is the
    parameter [other]. *)
Definition aton_octets (other : str -> res Z) (s : str) : res Z :=
  match map octet (split_dots s) with
  | [Some a; Some b; Some c; Some d] => Ok (a * 2 ^ 24 + b * 2 ^ 16 + c * 2 ^ 8 + d)
  | _ => other s
  end.
Section Dns.
  Variable io : str -> res Z.     (** int() outside plain decimals *)
  Variable other : str -> res Z.  (** inet_aton outside dotted quads *)
  (** dns.py 21-27: aton(ip) *)
  Definition aton (ip : str) : res Z :=
    match py_int io ip with
    | Ok i => Ok (aton_numbits i)
    | Err EValue => aton_octets other ip
    | Err e => Err e
    end.
  (** dns.py 36-47: the loop of netmaskToNumbits; [k] counts the bits that are left, i = 2^(k-1) *)
  Fixpoint numbits_loop (k : nat) (bits n : Z) : res Z :=
    match k with
    | O => Ok n
    | S k' =>
        if bits =? 0 then Ok n
        else let i := 2 ^ Z.of_nat k' in
             if Z.land bits i =? 0 then Err (EUser 2) else numbits_loop k' (bits - i) (n + 1)
    end.
  Definition numbits (bits : Z) : res Z := numbits_loop 32 bits 0.
  Definition netmaskToNumbits (netmask : str) : res Z := do bits <- aton netmask; numbits bits.
  (** list[-n:] and list[-n-1] for n >= 0 *)
  Definition last_n {A} (n : nat) (l : list A) : list A := match n with O => l | _ => skipn (length l - n) l end.
  (** dns.py 50-68: ptrSoaName(ip, netmask) *)
  Definition ptrSoaName (ip netmask : str) : res str :=
    do a <- aton ip; do m <- aton netmask;
    let net := Z.land a m in
    do nm <- netmaskToNumbits netmask;
    let bytes := Z.to_nat (nm / 8) in
    do t <- ntoa net;
    let octets := rev (split_dots t) in
    do l <- (if nm mod 8 =? 0 then Ok (last_n bytes octets)
             else match nth_error (rev octets) bytes with
                  | Some partial => Ok ((partial ++ 47 :: dec nm) :: last_n bytes octets)
                  | None => Err EIndex
                  end);
    Ok (join_dots l ++ S_ ".in-addr.arpa.").
End Dns.

(** ** autofill/sambaAccount.py, sambaSamAccount.py *)
Section Samba.
  Variable io : str -> res Z.
  (** The values of an attribute of the entry; None when it is absent. *)
  Variable values : str -> option (list str).
  Definition single (k : str) : res Z :=
    match values k with
    | None => Err EAssert
    | Some [v] => py_int io v
    | Some _ => Err EAssert
    end.
  (** sambaAccount.py 24-43: notify; the attribute set and its values, or nothing *)
  Definition samba_notify (ty : str) : res (option (str * list str)) :=
    if str_eqb ty (S_ "uidNumber") then do u <- single ty; Ok (Some (S_ "rid", [dec (u * 2 + 1000)]))
    else if str_eqb ty (S_ "gidNumber") then do g <- single ty; Ok (Some (S_ "primaryGroupID", [dec (g * 2 + 1001)]))
    else Ok None.
  (** sambaSamAccount.py 40-58: notify, with domainSID [sid] and fixedPrimaryGroupSID [fixed] *)
  Definition sam_notify (sid : str) (fixed : option Z) (ty : str) : res (option (str * list str)) :=
    if str_eqb ty (S_ "uidNumber") then do u <- single ty; Ok (Some (S_ "sambaSID", [sid ++ 45 :: dec (u * 2 + 1000)]))
    else match fixed with
         | None => if str_eqb ty (S_ "gidNumber")
                   then do g <- single ty; Ok (Some (S_ "sambaPrimaryGroupSID", [sid ++ 45 :: dec (g * 2 + 1001)]))
                   else Ok None
         | Some _ => Ok None
         end.
End Samba.

(** ** ldapconnector.py *)
(** A key of the dict of overrides: str, bytes or DistinguishedName. *)
Inductive okey := KStr (s : str) | KBytes (b : bytes) | KDn (d : dn).
Section Override.
  Variable lower : str -> str.
  Variable hash_str : str -> Z.
  Variable hash_bytes : bytes -> Z.
  (** hash(key); distinguishedname.py 274-275 for DNs *)
  Definition okey_hash (k : okey) : Z :=
    match k with KStr s => hash_str s | KBytes b => hash_bytes b | KDn d => hash_str (dn_text d) end.
  (** distinguishedname.py 277-284: dn == key; text that cannot be encoded is taken as unequal (Python
      raises) *)
  Definition okey_eq (d : dn) (k : okey) : bool :=
    match k with
    | KStr s => str_eqb (dn_text d) s
    | KBytes b => match utf8_encode (dn_text d) with Ok t => bytes_eqb t b | Err _ => false end
    | KDn d' => dn_eqb lower d d'
    end.
  Definition okey_match (d : dn) (k : okey) : bool :=
    (okey_hash k =? hash_str (dn_text d)) && okey_eq d k.
  (** dn in overrides, overrides[dn]: the dict as items in order of insertion *)
  Definition over_get {V} (d : dn) (o : list (okey * V)) : option V :=
    match find (fun x => okey_match d (fst x)) o with Some (_, v) => Some v | None => None end.
  (** ldapconnector.py 43-51: _findOverRide(dn, overrides); get_strings(dn) is (dn,) *)
  Fixpoint find_override {V} (o : list (okey * V)) (d : dn) : option V :=
    match over_get d o with
    | Some v => Some v
    | None =>
        if str_eqb (dn_text d) [] then None
        else match d with _ :: up => find_override o up | [] => None end
    end.
End Override.
(** ldapconnector.py 53-63: _isQueryNeeded, for an override that is not callable *)
Definition query_needed {H P} (ov : option (option H * option P)) : bool :=
  match ov with
  | None => true
  | Some (None, _) => true
  | Some (Some _, Some _) => false
  | Some (Some _, None) => true
  end.
(** ldapconnector.py 75-105: pickServer, ports being ints; [srv] is what SRVConnector.pickServer
    returns, [has_domain] whether self.domain is not None; int(None) raises TypeError *)
Definition pick_server {H} (ov : option (option H * option Z)) (has_domain : bool) (srv : H * Z) : res (H * Z) :=
  let '(oh, op) := match ov with None => (None, None) | Some x => x end in
  match oh, op with
  | Some h, Some p => Ok (h, p)
  | Some h, None => if has_domain then Ok (h, snd srv) else Err EType
  | None, _ => Ok (fst srv, match op with Some p => p | None => snd srv end)
  end.

(** ** ldaperrors.py *)
(** ldaperrors.py 41-293: the classes with a resultCode, and their names (LDAPExceptionCollection) *)
Definition err_table : list (Z * string) := [
  (0, "success"); (1, "operationsError"); (2, "protocolError"); (3, "timeLimitExceeded"); (4, "sizeLimitExceeded");
  (5, "compareFalse"); (6, "compareTrue"); (7, "authMethodNotSupported"); (8, "strongAuthRequired"); (10, "referral");
  (11, "adminLimitExceeded"); (12, "unavailableCriticalExtension"); (13, "confidentialityRequired"); (14, "saslBindInProgress");
  (16, "noSuchAttribute"); (17, "undefinedAttributeType"); (18, "inappropriateMatching"); (19, "constraintViolation");
  (20, "attributeOrValueExists"); (21, "invalidAttributeSyntax"); (32, "noSuchObject"); (33, "aliasProblem");
  (34, "invalidDNSyntax"); (36, "aliasDereferencingProblem"); (48, "inappropriateAuthentication"); (49, "invalidCredentials");
  (50, "insufficientAccessRights"); (51, "busy"); (52, "unavailable"); (53, "unwillingToPerform"); (54, "loopDetect");
  (64, "namingViolation"); (65, "objectClassViolation"); (66, "notAllowedOnNonLeaf"); (67, "notAllowedOnRDN");
  (68, "entryAlreadyExists"); (69, "objectClassModsProhibited"); (71, "affectsMultipleDSAs"); (80, "other")]%string.
Definition err_name (code : Z) : option bytes :=
  match find (fun x => fst x =? code) err_table with Some (_, n) => Some (B n) | None => None end.
(** An instance: the attribute resultCode, the attribute code (of LDAPUnknownError only), the class
    attribute name, and message (which Success does not keep). *)
Record lerr := mkErr { le_result : option Z; le_code : option Z; le_name : option bytes; le_msg : option pyval }.
(** ldaperrors.py 28-34: get_instance(code, message), with 46-47, 50-53, 68-73 *)
Definition err_get (code : Z) (msg : option pyval) : lerr :=
  match err_name code with
  | Some n => if code =? 0 then mkErr (Some 0) None (Some n) None else mkErr (Some code) None (Some n) msg
  | None => mkErr None (Some code) None msg
  end.
Definition msg_text (m : option pyval) : option pyval :=
  match m with Some (PStr []) | Some (PBytes []) | None => None | Some v => Some v end.
(** ldaperrors.py 59-64, 75-80: toWire() of a known and of an unknown error *)
Definition err_wire (e : lerr) : res bytes :=
  do n <- match le_code e, le_name e with
          | Some c, _ => do d <- utf8_encode (dec c); Ok (B "unknownError(" ++ d ++ B ")")
          | None, Some n => Ok n
          | None, None => Err EType
          end;
  match msg_text (le_msg e) with
  | Some m => do t <- to_bytes m; Ok (n ++ B ": " ++ t)
  | None => Ok n
  end.
