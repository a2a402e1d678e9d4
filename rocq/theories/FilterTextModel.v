(** Model of filters as text: the escape functions and the asText methods of
    ldaptor/protocols/pureldap.py, and ldaptor/ldapfilter.py, parseFilter.

    pyparsing is not part of the repository: its combinators are modelled here by hand, from the
    documentation and source of pyparsing 3. In this grammar no element skips white space
    (leaveWhitespace, ldapfilter.py 81, 108, 212, 231-236), so parsers work on what is left of the
    input. Values are text; filters whose values are bytes (as decoded from the wire) have no asText. *)
From Verif Require Import Base Utf8Model DnModel.

(** pureldap.py 581-599: LDAPFilter_substrings_initial, _any, _final *)
Inductive sub := SInitial (v : str) | SAny (v : str) | SFinal (v : str).
(** pureldap.py 568, 712, 679, 692 *)
Inductive cmp := CEq | CApprox | CGe | CLe.
(** pureldap.py 518-870: the filter classes. An extensible match keeps dnAttributes as None, or as a
    BERBoolean, which is true whatever its value (pureber.py 117: its length is 3). *)
Inductive tf :=
| TAnd (fs : list tf)
| TOr (fs : list tf)
| TNot (f : tf)
| TCmp (c : cmp) (a v : str)
| TPresent (a : str)
| TSub (a : str) (ss : list sub)
| TExt (rule ty : option str) (v : str) (dn : option bool).

(** s.replace(c, t) for one character c *)
Definition replace1 (c : Z) (t : str) (s : str) : str := flat_map (fun x => if x =? c then t else [x]) s.
(** pureldap.py 35-41: escape(s) *)
Definition escape (s : str) : str :=
  let s := replace1 92 (S_ "\5c") s in
  let s := replace1 42 (S_ "\2a") s in
  let s := replace1 40 (S_ "\28") s in
  let s := replace1 41 (S_ "\29") s in
  replace1 0 (S_ "\00") s.

Definition hex_digit (d : Z) : Z := if d <? 10 then 48 + d else 87 + d.
(** The hexadecimal digits of n, at least two: format code 02x. Six digits are enough for ord(). *)
Fixpoint hex_go (fuel : nat) (n : Z) (acc : str) : str :=
  match fuel with
  | O => acc
  | S k => if n <? 16 then hex_digit n :: acc else hex_go k (n / 16) (hex_digit (n mod 16) :: acc)
  end.
Definition hex02 (n : Z) : str := match hex_go 8 n [] with [d] => [48; d] | l => l end.
(** pureldap.py 44-45: binary_escape(s) *)
Definition binary_escape (s : str) : str := flat_map (fun c => 92 :: hex02 c) s.
(** string.printable *)
Definition printable (c : Z) : bool := ((9 <=? c) && (c <=? 13)) || ((32 <=? c) && (c <=? 126)).
(** pureldap.py 48-53: smart_escape(s), threshold 0.30. The quotient of floats is compared with 0.30
    exactly as the integers below are, for strings shorter than 10^15. *)
Definition smart_escape (s : str) : res str :=
  let binary_count := zlen (List.filter (fun c => negb (printable c)) s) in
  if zlen s =? 0 then Err EZeroDiv
  else if 3 * zlen s <? 10 * binary_count then Ok (binary_escape s) else Ok (escape s).

(** ** asText *)
Definition cmp_text (c : cmp) : str :=
  match c with CEq => S_ "=" | CApprox => S_ "~=" | CGe => S_ ">=" | CLe => S_ "<=" end.
(** "*".join(l) *)
Fixpoint join_star (l : list str) : str :=
  match l with [] => [] | [x] => x | x :: r => x ++ 42 :: join_star r end.

Section AsText.
  (** The escaper of the object; escape unless another is given (pureldap.py 62, 462, 809). *)
  Variable esc : str -> res str.
  (** pureldap.py 650-676: the loop; initial, any, final so far *)
  Fixpoint sub_text (ss : list sub) (ini : option str) (any : list str) (fin : option str) : res str :=
    match ss with
    | [] =>
        let i := match ini with None => [] | Some x => x end in
        let f := match fin with None => [] | Some x => x end in
        Ok (join_star ([i] ++ any ++ [f]))
    | SInitial v :: r =>
        match ini, any, fin with
        | None, [], None => do t <- esc v; sub_text r (Some t) any fin
        | _, _, _ => Err EAssert
        end
    | SFinal v :: r => match fin with None => do t <- esc v; sub_text r ini any (Some t) | _ => Err EAssert end
    | SAny v :: r => match fin with None => do t <- esc v; sub_text r ini (any ++ [t]) fin | _ => Err EAssert end
    end.
  (** pureldap.py 521-522, 528-529, 564-565, 571-578, 650-676, 682-689, 695-702, 708-709, 715-722,
      856-865: x.asText() *)
  Fixpoint as_text (f : tf) : res str :=
    let texts := fix texts fs := match fs with [] => Ok [] | x :: r => do t <- as_text x; do ts <- texts r; Ok (t ++ ts) end in
    match f with
    | TAnd fs => do t <- texts fs; Ok (S_ "(&" ++ t ++ S_ ")")
    | TOr fs => do t <- texts fs; Ok (S_ "(|" ++ t ++ S_ ")")
    | TNot x => do t <- as_text x; Ok (S_ "(!" ++ t ++ S_ ")")
    | TCmp c a v => do t <- esc v; Ok (S_ "(" ++ a ++ cmp_text c ++ t ++ S_ ")")
    | TPresent a => Ok (S_ "(" ++ a ++ S_ "=*)")
    | TSub a ss => do t <- sub_text ss None [] None; Ok (S_ "(" ++ a ++ S_ "=" ++ t ++ S_ ")")
    | TExt rule ty v dn =>
        do t <- esc v;
        Ok (S_ "(" ++ match ty with Some a => a | None => [] end ++
            match dn with Some true => S_ ":dn" | _ => [] end ++
            match rule with Some r => 58 :: r | None => [] end ++ S_ ":=" ++ t ++ S_ ")")
    end.
End AsText.

(** ** The grammar *)
Definition alpha (c : Z) : bool := ((65 <=? c) && (c <=? 90)) || ((97 <=? c) && (c <=? 122)).
Definition digit (c : Z) : bool := (48 <=? c) && (c <=? 57).
(** string.ascii_letters + string.digits + ";-" *)
Definition keychar (c : Z) : bool := alpha c || digit c || (c =? 59) || (c =? 45).
(** The longest prefix of characters in [p]. *)
Fixpoint span (p : Z -> bool) (s : str) : str * str :=
  match s with
  | c :: r => if p c then let (a, b) := span p r in (c :: a, b) else ([], s)
  | [] => ([], [])
  end.
(** Literal(l) *)
Fixpoint lit (l s : str) : option str :=
  match l, s with
  | [], _ => Some s
  | x :: l', c :: s' => if c =? x then lit l' s' else None
  | _, [] => None
  end.
(** ldapfilter.py 77-80 and 146: Word(letters, letters, digits, ";-") *)
Definition p_attr (s : str) : option (str * str) :=
  match s with
  | c :: r => if alpha c then let (a, b) := span keychar r in Some (c :: a, b) else None
  | [] => None
  end.
(** ldapfilter.py 95: CharsNotIn("*()\\\0") *)
Definition special (c : Z) : bool := (c =? 42) || (c =? 40) || (c =? 41) || (c =? 92) || (c =? 0).
(** ldapfilter.py 83-95: OneOrMore(CharsNotIn(...) | escaped), combined. A run of plain characters is
    taken one by one, which comes to the same. *)
Fixpoint value_go (s : str) : str * str :=
  match s with
  | [] => ([], [])
  | c :: r =>
      if special c then
        if c =? 92 then
          match r with
          | h :: l :: r' =>
              match hexval h, hexval l with
              | Some x, Some y => let (v, t) := value_go r' in (16 * x + y :: v, t)
              | _, _ => ([], s)
              end
          | _ => ([], s)
          end
        else ([], s)
      else let (v, t) := value_go r in (c :: v, t)
  end.
Definition p_value (s : str) : option (str * str) := match value_go s with ([], _) => None | (v, t) => Some (v, t) end.
(** ldapfilter.py 97-105: filtertype *)
Definition p_cmp (s : str) : option (cmp * str) :=
  match lit (S_ "=") s with
  | Some r => Some (CEq, r)
  | None => match lit (S_ "~=") s with
    | Some r => Some (CApprox, r)
    | None => match lit (S_ ">=") s with
      | Some r => Some (CGe, r)
      | None => match lit (S_ "<=") s with Some r => Some (CLe, r) | None => None end
      end
    end
  end.

Notation "'try' x <- e ; k" := (match e with Some x => k | None => None end)
  (at level 200, x pattern, e at level 100, k at level 200, right associativity).
(** ldapfilter.py 107-120: simple *)
Definition p_simple (s : str) : option (tf * str) :=
  try (a, s1) <- p_attr s; try (c, s2) <- p_cmp s1; try (v, s3) <- p_value s2; Some (TCmp c a v, s3).
(** ldapfilter.py 121-122: present *)
Definition p_present (s : str) : option (tf * str) :=
  try (a, s1) <- p_attr s; try s2 <- lit (S_ "=*") s1; Some (TPresent a, s2).
(** ldapfilter.py 126-128: ZeroOrMore(any_value); every round takes at least two characters *)
Fixpoint p_anys (fuel : nat) (s : str) : option (list str * str) :=
  match fuel with
  | O => None
  | S k =>
      match (try (v, s1) <- p_value s; try s2 <- lit (S_ "*") s1; Some (v, s2)) with
      | Some (v, s2) => try (vs, s3) <- p_anys k s2; Some (v :: vs, s3)
      | None => Some ([], s)
      end
  end.
(** Optional(value) *)
Definition p_opt (s : str) : option str * str :=
  match p_value s with Some (v, t) => (Some v, t) | None => (None, s) end.
Definition list_of {A} (o : option A) : list A := match o with Some x => [x] | None => [] end.
(** ldapfilter.py 123-144: substring *)
Definition p_substring (s : str) : option (tf * str) :=
  try (a, s1) <- p_attr s; try s2 <- lit (S_ "=") s1;
  let (i, s3) := p_opt s2 in
  try s4 <- lit (S_ "*") s3; try (vs, s5) <- p_anys (S (length s4)) s4;
  let (f, s6) := p_opt s5 in
  Some (TSub a (map SInitial (list_of i) ++ map SAny vs ++ map SFinal (list_of f)), s6).
(** ldapfilter.py 148: digits separated by dots: a dot belongs to it when a digit follows *)
Fixpoint num_go (s : str) : str * str :=
  match s with
  | c :: r =>
      if digit c || ((c =? 46) && match r with d :: _ => digit d | [] => false end)
      then let (a, b) := num_go r in (c :: a, b) else ([], s)
  | [] => ([], [])
  end.
(** ldapfilter.py 146-152: oid *)
Definition p_oid (s : str) : option (str * str) :=
  match s with
  | c :: _ => if digit c then Some (num_go s) else p_attr s
  | [] => None
  end.
(** ldapfilter.py 155-162: Optional(":dn") *)
Definition p_dn (s : str) : bool * str := match lit (S_ ":dn") s with Some r => (true, r) | None => (false, s) end.
(** ldapfilter.py 164-174: Optional(Suppress(":") + matchingrule) *)
Definition p_rule (s : str) : option str * str :=
  match (try s1 <- lit (S_ ":") s; p_oid s1) with Some (r, s2) => (Some r, s2) | None => (None, s) end.
(** ldapfilter.py 176-209: extensible_attr, extensible_noattr, extensible *)
Definition p_ext_attr (s : str) : option (tf * str) :=
  try (a, s1) <- p_attr s; let (d, s2) := p_dn s1 in let (r, s3) := p_rule s2 in
  try s4 <- lit (S_ ":=") s3; try (v, s5) <- p_value s4; Some (TExt r (Some a) v (Some d), s5).
Definition p_ext_noattr (s : str) : option (tf * str) :=
  let (d, s1) := p_dn s in try s2 <- lit (S_ ":") s1; try (r, s3) <- p_oid s2;
  try s4 <- lit (S_ ":=") s3; try (v, s5) <- p_value s4; Some (TExt (Some r) None v (Some d), s5).
Definition p_extensible (s : str) : option (tf * str) :=
  match p_ext_attr s with Some x => Some x | None => p_ext_noattr s end.
(** The longer of two matches, the first when equally long. *)
Definition longer (x y : option (tf * str)) : option (tf * str) :=
  match x, y with
  | Some (_, s), Some (_, t) => if (length t <? length s)%nat then y else x
  | Some _, None => x
  | None, _ => y
  end.
(** ldapfilter.py 210: item = simple ^ present ^ substring ^ extensible *)
Definition p_item (s : str) : option (tf * str) :=
  longer (longer (longer (p_simple s) (p_present s)) (p_substring s)) (p_extensible s).

(** The outcome of a recursive parser: a match, no match, or too deep a recursion. *)
Inductive pr (A : Type) := POk (a : A) (rest : str) | PNo | PDeep.
Arguments POk {A} _ _. Arguments PNo {A}. Arguments PDeep {A}.
(** ZeroOrMore(p) *)
Fixpoint p_many (p : str -> pr tf) (fuel : nat) (s : str) : pr (list tf) :=
  match fuel with
  | O => PDeep
  | S k =>
      match p s with
      | POk f r => match p_many p k r with POk fs r' => POk (f :: fs) r' | PNo => PNo | PDeep => PDeep end
      | PNo => POk [] s
      | PDeep => PDeep
      end
  end.
(** ldapfilter.py 216: OneOrMore(filter_) *)
Definition p_list (p : str -> pr tf) (s : str) : pr (list tf) :=
  match p_many p (S (length s)) s with POk [] _ => PNo | x => x end.
(** ldapfilter.py 213-224: filtercomp = and_ | or_ | not_ | item. The four begin differently, so the
    first that begins rightly is the only one that can match. *)
Definition p_comp (p : str -> pr tf) (s : str) : pr tf :=
  match lit (S_ "&") s, lit (S_ "|") s, lit (S_ "!") s with
  | Some r, _, _ => match p_list p r with POk fs t => POk (TAnd fs) t | PNo => PNo | PDeep => PDeep end
  | _, Some r, _ => match p_list p r with POk fs t => POk (TOr fs) t | PNo => PNo | PDeep => PDeep end
  | _, _, Some r => match p r with POk f t => POk (TNot f) t | PNo => PNo | PDeep => PDeep end
  | _, _, _ => match p_item s with Some (f, t) => POk f t | None => PNo end
  end.
(** ldapfilter.py 225-229: filter_. [n] is Python's recursion limit, counted in levels of nesting. *)
Fixpoint p_filter (n : nat) (s : str) : pr tf :=
  match n with
  | O => PDeep
  | S n' =>
      match lit (S_ "(") s with
      | None => PNo
      | Some r =>
          match p_comp (p_filter n') r with
          | POk f t => match lit (S_ ")") t with Some t' => POk f t' | None => PNo end
          | x => x
          end
      end
  end.

(** str.expandtabs(), which pyparsing's parseString applies to its input; [col] is the column *)
Fixpoint expandtabs_go (col : Z) (s : str) : str :=
  match s with
  | [] => []
  | c :: r =>
      if c =? 9 then let k := 8 - col mod 8 in repeat 32 (Z.to_nat k) ++ expandtabs_go (col + k) r
      else if (c =? 10) || (c =? 13) then c :: expandtabs_go 0 r
      else c :: expandtabs_go (col + 1) r
  end.
Definition expandtabs (s : str) : str := expandtabs_go 0 s.

(** ldapfilter.py 44-50: InvalidLDAPFilter, without position *)
Definition EInvalidFilter : exn := EUser 50.
(** ldapfilter.py 234-252: parseFilter(s) *)
Definition parse_filter (depth : nat) (s : pyval) : res tf :=
  do t <- to_unicode s;
  match p_filter depth (expandtabs t) with
  | POk f [] => Ok f
  | PDeep => Err ERecursion
  | _ => Err EInvalidFilter
  end.
