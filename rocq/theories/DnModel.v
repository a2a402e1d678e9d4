(** Model of ldaptor/protocols/ldap/distinguishedname.py.
    Text is [str] (code points). DNs given as bytes are decoded from UTF-8 first
    (_encoder.py 25-34, to_unicode); that step is modelled in Utf8Model.v. *)
From Verif Require Import Base.

(** Characters. *)
Definition c_space := 32. Definition c_hash := 35. Definition c_quote := 34.
Definition c_plus := 43. Definition c_comma := 44. Definition c_semi := 59.
Definition c_lt := 60. Definition c_eq := 61. Definition c_gt := 62. Definition c_bs := 92.

(** distinguishedname.py 10: escapedChars *)
Definition escapedChars : list Z :=
  [c_comma; c_plus; c_quote; c_bs; c_lt; c_gt; c_semi; c_eq].
(** 11-12: escapedChars_leading, escapedChars_trailing *)
Definition escapedEnds : list Z := [c_space; c_hash].

Definition zin (c : Z) (l : list Z) : bool := existsb (Z.eqb c) l.

(** "%02X" digits. *)
Definition hex_upper (d : Z) : Z := if d <? 10 then 48 + d else 55 + d.

(** 27-33: one step of the loop of escape. *)
Definition escape_char (c : Z) : str :=
  if zin c escapedChars then [c_bs; c]
  else if c <=? 31 then [c_bs; hex_upper (c / 16); hex_upper (c mod 16)]
  else [c].

(** 19-21: the leading part of escape: what is emitted, what is left. *)
Definition escape_lead (s : str) : str * str :=
  match s with
  | c :: r => if zin c escapedEnds then ([c_bs; c], r) else ([], s)
  | [] => ([], [])
  end.

(** 23-25: the trailing part: what is left, what is emitted at the end. *)
Definition escape_trail (s : str) : str * str :=
  match rev s with
  | c :: r => if zin c escapedEnds then (rev r, [c_bs; c]) else (s, [])
  | [] => ([], [])
  end.

(** 15-35: escape(s) *)
Definition escape (s : str) : str :=
  let (r, s1) := escape_lead s in
  let (s2, r_trailer) := escape_trail s1 in
  r ++ flat_map escape_char s2 ++ r_trailer.

(** The value of an ASCII hexadecimal digit. *)
Definition hexval (c : Z) : option Z :=
  if (48 <=? c) && (c <=? 57) then Some (c - 48)
  else if (65 <=? c) && (c <=? 70) then Some (c - 55)
  else if (97 <=? c) && (c <=? 102) then Some (c - 87)
  else None.

(** 43: s[1] in "0123456789abcdef" *)
Definition lower_hex (c : Z) : bool :=
  ((48 <=? c) && (c <=? 57)) || ((97 <=? c) && (c <=? 102)).

Section Parse.
  (** int(s, 16) where s is an ASCII digit and one non-ASCII character: Python accepts
      other decimal digits and other white space. Any behaviour is allowed here. *)
  Variable int_other : Z -> Z -> res Z.

  (** int(s[1:3], 16) for a digit followed by one character (44). int() strips ASCII white space. *)
  Definition int16 (c d : Z) : res Z :=
    match hexval c with
    | None => Err EValue
    | Some v =>
        match hexval d with
        | Some w => Ok (16 * v + w)
        | None =>
            if ((9 <=? d) && (d <=? 13)) || (d =? 32) then Ok v
            else if d <? 128 then Err EValue else int_other c d
        end
    end.
  Definition int16_1 (c : Z) : res Z :=
    match hexval c with None => Err EValue | Some v => Ok v end.

  (** 38-53: unescape(s) *)
  Fixpoint unescape (s : str) : res str :=
    match s with
    | [] => Ok []
    | c :: r =>
        if c =? c_bs then
          match r with
          | [] => Err EIndex                                       (* s[1] *)
          | d :: r2 =>
              if lower_hex d then
                match r2 with
                | [] => do v <- int16_1 d; Ok [v]
                | e :: r3 => do v <- int16 d e; do t <- unescape r3; Ok (v :: t)
                end
              else do t <- unescape r2; Ok (d :: t)
          end
        else do t <- unescape r; Ok (c :: t)
    end.

  (** 56-78: the loop of _splitOnNotEscaped. [cur] is r[-1]; [skip] is true while the inner
      "while s[0:1] == ' '" loop (72-73) runs. *)
  Fixpoint split_loop (sep : Z) (skip : bool) (cur : str) (s : str) : list str :=
    match s with
    | [] => [cur]
    | c :: r =>
        if skip && (c =? c_space) then split_loop sep true cur r
        else if c =? c_bs then
          match r with
          | [] => [cur ++ [c]]
          | d :: r2 => split_loop sep false (cur ++ [c; d]) r2
          end
        else if c =? sep then cur :: split_loop sep true [] r
        else split_loop sep false (cur ++ [c]) r
    end.

  (** 56-78: _splitOnNotEscaped(s, separator) *)
  Definition splitOnNotEscaped (s : str) (sep : Z) : list str :=
    match s with [] => [] | _ => split_loop sep false [] s end.

  (** 96-159: LDAPAttributeTypeAndValue *)
  Record atv := mkAtv { a_type : str; a_value : str }.

  (** InvalidRelativeDistinguishedName (81-93). *)
  Definition EInvalidRDN : exn := EUser 1.

  (** s.split("=", 1) when "=" is in s. *)
  Fixpoint split_eq (s : str) : option (str * str) :=
    match s with
    | [] => None
    | c :: r => if c =? c_eq then Some ([], r)
                else match split_eq r with Some (a, b) => Some (c :: a, b) | None => None end
    end.

  (** 108-115: LDAPAttributeTypeAndValue(stringValue=s) *)
  Definition parse_atv (s : str) : res atv :=
    match split_eq s with
    | None => Err EInvalidRDN
    | Some (t, v) => Ok (mkAtv t v)
    end.

  Fixpoint mapR {A C} (f : A -> res C) (l : list A) : res (list C) :=
    match l with
    | [] => Ok []
    | x :: r => do y <- f x; do t <- mapR f r; Ok (y :: t)
    end.

  (** RelativeDistinguishedName: its attributeTypesAndValues. *)
  Definition rdn := list atv.
  (** 183-187: RelativeDistinguishedName(stringValue=s) *)
  Definition parse_rdn (s : str) : res rdn :=
    mapR (fun x => do u <- unescape x; parse_atv u) (splitOnNotEscaped s c_plus).

  (** DistinguishedName: its listOfRDNs. *)
  Definition dn := list rdn.
  (** 258-262: DistinguishedName(stringValue=s) *)
  Definition parse_dn (s : str) : res dn :=
    mapR parse_rdn (splitOnNotEscaped s c_comma).
End Parse.

(** sep.join(l) *)
Fixpoint join (sep : str) (l : list str) : str :=
  match l with
  | [] => []
  | [x] => x
  | x :: r => x ++ sep ++ join sep r
  end.

(** 117-118: LDAPAttributeTypeAndValue.getText() *)
Definition atv_text (a : atv) : str := join [c_eq] [escape (a_type a); escape (a_value a)].
(** 192-193: RelativeDistinguishedName.getText() *)
Definition rdn_text (r : rdn) : str := join [c_plus] (map atv_text r).
(** 270-271: DistinguishedName.getText() *)
Definition dn_text (d : dn) : str := join [c_comma] (map rdn_text d).

(** 267-268: up() *)
Definition dn_up (d : dn) : dn := tl d.

Section Compare.
  (** str.lower(). *)
  Variable lower : str -> str.

  (** 133-139: LDAPAttributeTypeAndValue.__eq__ *)
  Definition atv_eqb (a b : atv) : bool :=
    str_eqb (lower (a_type a)) (lower (a_type b)) && str_eqb (lower (a_value a)) (lower (a_value b)).

  (** Equality of tuples. *)
  Fixpoint list_eqb {A} (eqb : A -> A -> bool) (l m : list A) : bool :=
    match l, m with
    | [], [] => true
    | x :: l', y :: m' => eqb x y && list_eqb eqb l' m'
    | _, _ => false
    end.

  (** 206-209: RelativeDistinguishedName.__eq__ *)
  Definition rdn_eqb (a b : rdn) : bool := list_eqb atv_eqb a b.
  (** 279-286: DistinguishedName.__eq__ with another DistinguishedName *)
  Definition dn_eqb (a b : dn) : bool := list_eqb rdn_eqb a b.

  (** str < str *)
  Definition str_ltb (a b : str) : bool := negb (str_leb b a).

  (** 144-150: LDAPAttributeTypeAndValue.__lt__ *)
  Definition atv_ltb (a b : atv) : bool :=
    if negb (str_eqb (a_type a) (a_type b)) then str_ltb (a_type a) (a_type b)
    else str_ltb (a_value a) (a_value b).

  (** 152-153: __gt__ calls itself; [depth] is what is left of Python's recursion limit. *)
  Fixpoint atv_gt (depth : nat) (a b : atv) : res bool :=
    match depth with
    | O => Err ERecursion
    | S d => if negb (atv_eqb a b) then atv_gt d a b else Ok false
    end.
  (** 155-156: __le__ *)
  Definition atv_le (depth : nat) (a b : atv) : res bool := do g <- atv_gt depth a b; Ok (negb g).
  (** 158-159: __ge__ *)
  Definition atv_geb (a b : atv) : bool := negb (atv_ltb a b).

  (** Tuple comparison: the first pair of unequal elements decides, else the lengths. *)
  Fixpoint list_ltb {A} (eqb ltb : A -> A -> bool) (l m : list A) : bool :=
    match l, m with
    | [], [] => false
    | [], _ :: _ => true
    | _ :: _, [] => false
    | x :: l', y :: m' => if eqb x y then list_ltb eqb ltb l' m' else ltb x y
    end.

  (** 214-217: RelativeDistinguishedName.__lt__ *)
  Definition rdn_ltb (a b : rdn) : bool := list_ltb atv_eqb atv_ltb a b.
  (** 225-226: __ge__ *)
  Definition rdn_geb (a b : rdn) : bool := negb (rdn_ltb a b).
  (** 219-220: __gt__ *)
  Definition rdn_gtb (a b : rdn) : bool := negb (rdn_eqb a b) && rdn_geb a b.
  (** 222-223: __le__ *)
  Definition rdn_leb (a b : rdn) : bool := negb (rdn_gtb a b).

  (** 291-300: DistinguishedName.__lt__; the other three come from functools.total_ordering (232). *)
  Definition dn_ltb (a b : dn) : bool := list_ltb rdn_eqb rdn_ltb a b.
  Definition dn_gtb (a b : dn) : bool := negb (dn_ltb a b) && negb (dn_eqb a b).
  Definition dn_leb (a b : dn) : bool := dn_ltb a b || dn_eqb a b.
  Definition dn_geb (a b : dn) : bool := negb (dn_ltb a b).

  (** 327-334: the loop of contains, on the reversed lists (pop takes the last element). *)
  Fixpoint contains_loop (mine its : list rdn) : bool :=
    match mine, its with
    | m :: mine', i :: its' => if negb (rdn_eqb m i) then false else contains_loop mine' its'
    | _ :: _, [] => false
    | [], _ => true
    end.
  (** 318-334: self.contains(other), other a DistinguishedName *)
  Definition contains (self other : dn) : bool :=
    if dn_eqb self other then true else contains_loop (rev self) (rev other).
End Compare.

Section Hash.
  (** hash() of a str, of a pair of str, and of a tuple of hashes. *)
  Variable hash_str : str -> Z.
  Variable hash_pair : str * str -> Z.
  Variable hash_tuple : list Z -> Z.
  (** 130-131 *)
  Definition atv_hash (a : atv) : Z := hash_pair (a_type a, a_value a).
  (** 203-204 *)
  Definition rdn_hash (r : rdn) : Z := hash_tuple (map atv_hash r).
  (** 276-277 *)
  Definition dn_hash (d : dn) : Z := hash_str (dn_text d).
End Hash.

(** 302-316: getDomainName(). [upper] is str.upper(). *)
Section Domain.
  Variable upper : str -> str.
  Fixpoint domain_loop (l : list rdn) (parts : list str) : list str :=
    match l with
    | [a] :: r =>
        if negb (str_eqb (upper (a_type a)) (S_ "DC")) then parts
        else domain_loop r (a_value a :: parts)
    | _ => parts
    end.
  Definition getDomainName (d : dn) : option str :=
    match domain_loop (rev d) [] with [] => None | l => Some (join (S_ ".") l) end.
End Domain.
