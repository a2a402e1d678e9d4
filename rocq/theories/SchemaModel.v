(** Model of ldaptor/schema.py: the parsers and printers of schema descriptions.
    Text handed to a constructor is taken as octets (to_bytes was modelled with the encoder).
    Each object is parsed once, so the fields that the code asserts to be None before it sets them
    are None. *)
From Verif Require Import Base.

(** ASCII white space, as bytes.split(None) and bytes.strip() know it *)
Definition space (c : byte) : bool := existsb (Z.eqb (b2z c)) [32; 9; 10; 11; 12; 13].
Fixpoint lstrip (t : bytes) : bytes := match t with c :: r => if space c then lstrip r else t | [] => [] end.
Definition strip (t : bytes) : bytes := rev (lstrip (rev (lstrip t))).
(** bytes.split(None, 1): the first word and what follows it, when there is a word *)
Fixpoint word_of (t : bytes) : bytes * bytes :=
  match t with c :: r => if space c then ([], t) else let (w, s) := word_of r in (c :: w, s) | [] => ([], []) end.
Definition is_at (c : Z) (t : bytes) : bool := match t with b :: _ => b2z b =? c | [] => false end.
(** bytes.index(c): the text before the first c and the text after it *)
Fixpoint cut (c : Z) (t : bytes) : res (bytes * bytes) :=
  match t with
  | [] => Err EValue
  | b :: r => if b2z b =? c then Ok ([], r) else do (x, y) <- cut c r; Ok (b :: x, y)
  end.
(** bytes.split(c) *)
Fixpoint split_on (c : Z) (t : bytes) : list bytes :=
  match t with
  | [] => [[]]
  | b :: r => if b2z b =? c then [] :: split_on c r
              else match split_on c r with x :: l => (b :: x) :: l | [] => [[b]] end
  end.
(** bytes.join *)
Fixpoint join (sep : bytes) (l : list bytes) : bytes :=
  match l with [] => [] | [x] => x | x :: r => x ++ sep ++ join sep r end.

(** schema.py 4-13: extractWord(text) *)
Definition extractWord (t : bytes) : res (bytes * bytes) :=
  match t with
  | [] => Ok ([], [])
  | _ => match word_of (lstrip t) with ([], _) => Err EIndex | (w, r) => Ok (w, lstrip r) end
  end.
(** schema.py 16-19: peekWord(text) *)
Definition peekWord (t : bytes) : res (option bytes) :=
  match t with
  | [] => Ok None
  | _ => match word_of (lstrip t) with ([], _) => Err EIndex | (w, _) => Ok (Some w) end
  end.

(** schema.py 23-30: _to_list *)
Fixpoint strip_all (l : list bytes) : res (list bytes) :=
  match l with
  | [] => Ok []
  | x :: r => match strip x with [] => Err EAssert | y => do ys <- strip_all r; Ok (y :: ys) end
  end.
Definition to_list (t : bytes) : res (list bytes) := strip_all (split_on 36 t).
(** schema.py 32-46: _strings_to_list; each round takes at least one octet *)
Fixpoint strings_loop (fuel : nat) (t : bytes) : res (list bytes) :=
  match fuel with
  | O => Err EFuel
  | S k =>
      match lstrip t with
      | [] => Ok []
      | t' => if negb (is_at 39 t') then Err EAssert
              else do (s, r) <- cut 39 (tl t'); do l <- strings_loop k r; Ok (s :: l)
      end
  end.
Definition strings_to_list (t : bytes) : res (list bytes) := strings_loop (S (length t)) t.
(** schema.py 48-60: _str, _str_list, _list *)
Definition q_str (s : bytes) : bytes := B "'" ++ s ++ B "'".
Definition q_list (l : list bytes) : bytes :=
  let s := join (B " ") (map q_str l) in
  match l with _ :: _ :: _ => B "( " ++ s ++ B " )" | _ => s end.
Definition d_list (l : list bytes) : bytes :=
  let s := join (B " $ ") l in
  match l with _ :: _ :: _ => B "( " ++ s ++ B " )" | _ => s end.

(** ** The blocks that the parsers are made of *)
(** peekWord(text) == kw *)
Definition peeks (kw t : bytes) : res bool :=
  do w <- peekWord t; Ok (match w with Some x => bytes_eqb x kw | None => false end).
(** text = text[len(kw + " "):] *)
Definition skip (kw t : bytes) : bytes := skipn (S (length kw)) t.
(** schema.py 128-136, 376-384, 614-622, 702-710: the parentheses, and the OID *)
Definition p_open (t : bytes) : res (bytes * bytes) :=
  if negb (is_at 40 t) then Err EAssert
  else if negb (is_at 41 (rev t)) then Err EAssert
  else do (oid, r) <- extractWord (lstrip (removelast (tl t))); Ok (oid, lstrip r).
(** schema.py 141-153, 389-401, 715-727: a quoted string, or quoted strings in parentheses *)
Definition p_strings (t : bytes) : res (list bytes * bytes) :=
  if is_at 39 t then do (s, r) <- cut 39 (tl t); Ok ([s], r)
  else if is_at 40 t then do (s, r) <- cut 41 (lstrip (tl t)); do l <- strings_to_list s; Ok (l, r)
  else Err EAssert.
(** schema.py 138-155, 386-403, 712-729: NAME *)
Definition p_name (t : bytes) : res (option (list bytes) * bytes) :=
  do b <- peeks (B "NAME") t;
  if b : bool then do (l, r) <- p_strings (lstrip (skip (B "NAME") t)); Ok (Some l, lstrip r) else Ok (None, lstrip t).
(** schema.py 157-166, 405-414, 624-633, 731-740: DESC *)
Definition p_desc (t : bytes) : res (option bytes * bytes) :=
  do b <- peeks (B "DESC") t;
  if b : bool then
    let t' := lstrip (skip (B "DESC") t) in
    if negb (is_at 39 t') then Err EAssert else do (s, r) <- cut 39 (tl t'); Ok (Some s, lstrip r)
  else Ok (None, lstrip t).
(** schema.py 168-172, 416-420, 457-476, 742-746: a word that stands alone *)
Definition p_flag (kw t : bytes) : res (bool * bytes) :=
  do b <- peeks kw t; Ok (if b : bool then (true, lstrip (skip kw t)) else (false, lstrip t)).
(** schema.py 422-455, 478-482, 748-753: a word with a word after it *)
Definition p_word (kw t : bytes) : res (option bytes * bytes) :=
  do b <- peeks kw t;
  if b : bool then do (w, r) <- extractWord (lstrip (skip kw t)); Ok (Some w, lstrip r) else Ok (None, lstrip t).
(** schema.py 174-187, 210-238: OIDs. The first component says whether there were parentheses. *)
Definition p_oids (kw t : bytes) : res (option (bool * list bytes) * bytes) :=
  do b <- peeks kw t;
  if b : bool then
    let t' := lstrip (skip kw t) in
    if is_at 40 t' then do (s, r) <- cut 41 (lstrip (tl t')); do l <- to_list s; Ok (Some (true, l), lstrip r)
    else do (w, r) <- extractWord t'; Ok (Some (false, [w]), lstrip r)
  else Ok (None, lstrip t).
(** schema.py 245-248, 523-526, 651-653, 759-761: the checks of the OID and of the name *)
Definition oid_char (c : byte) : bool := existsb (fun d => beqb d c) (B "0123456789.").
Definition oid_check (oid : bytes) : bool := negb (bytes_eqb oid []) && forallb oid_char oid.
Definition name_check (n : option (list bytes)) : bool := match n with Some [] => false | _ => true end.

(** ** Object classes *)
(** The value of sup is a list or a tuple. *)
Inductive sups := SupList (l : list bytes) | SupTuple (l : list bytes).
Definition sup_items (s : sups) : list bytes := match s with SupList l | SupTuple l => l end.
(** schema.py 114-122: the attributes *)
Record ocd := mkOcd { o_oid : bytes; o_name : option (list bytes); o_desc : option bytes; o_obsolete : bool; o_sup : sups; o_type : bytes; o_must : list bytes; o_may : list bytes }.
Definition oid_list (o : option (bool * list bytes)) : list bytes := match o with Some (_, l) => l | None => [] end.
(** schema.py 189-208: the kind; an assertion allows one only *)
Definition p_type (t : bytes) : res (option bytes * bytes) :=
  do (a, t1) <- p_flag (B "ABSTRACT") t; do (s, t2) <- p_flag (B "STRUCTURAL") t1;
  if a && s then Err EAssert
  else do (x, t3) <- p_flag (B "AUXILIARY") t2;
       if (a || s) && x then Err EAssert
       else Ok (if a then Some (B "ABSTRACT") else if s then Some (B "STRUCTURAL") else if x then Some (B "AUXILIARY") else None, t3).
(** schema.py 127-249: _parse. What is read is all that is read before the checks at the end. *)
Definition parse_ocd (t : bytes) : res ocd :=
  do (oid, t1) <- p_open t;
  do (name, t2) <- p_name t1;
  do (desc, t3) <- p_desc t2;
  do (obs, t4) <- p_flag (B "OBSOLETE") t3;
  do (sup, t5) <- p_oids (B "SUP") t4;
  do (ty, t6) <- p_type t5;
  do (must, t7) <- p_oids (B "MUST") t6;
  do (may, t8) <- p_oids (B "MAY") t7;
  if negb (bytes_eqb t8 []) then Err EAssert
  else if negb (oid_check oid && name_check name) then Err EAssert
  else Ok (mkOcd oid name desc obs (match sup with None => SupList [] | Some (true, l) => SupTuple l | Some (false, l) => SupList l end)
             (match ty with Some x => x | None => B "STRUCTURAL" end) (oid_list must) (oid_list may)).
(** The items that toWire collects for an optional field, a flag, and OIDs. *)
Definition optl {A} (o : option A) (g : A -> bytes) : list bytes := match o with Some x => [g x] | None => [] end.
Definition flagl (b : bool) (kw : bytes) : list bytes := if b then [kw] else [].
Definition oidl (kw : bytes) (l : list bytes) : list bytes := match l with [] => [] | _ => [kw ++ B " " ++ d_list l] end.
(** schema.py 280, 590: the separator *)
Definition NLSEP : bytes := z2b 10 :: B "        ".
(** schema.py 265-280: toWire *)
Definition print_ocd (d : ocd) : bytes :=
  B "( " ++ o_oid d ++ B " " ++
  join NLSEP (optl (o_name d) (fun l => B "NAME " ++ q_list l) ++ optl (o_desc d) (fun s => B "DESC " ++ q_str s) ++
              flagl (o_obsolete d) (B "OBSOLETE") ++ oidl (B "SUP") (sup_items (o_sup d)) ++ [o_type d] ++
              oidl (B "MUST") (o_must d) ++ oidl (B "MAY") (o_may d)) ++ B " )".
(** schema.py 304-316: __eq__; a list and a tuple are not equal *)
Fixpoint list_eqb (a b : list bytes) : bool :=
  match a, b with [], [] => true | x :: a', y :: b' => bytes_eqb x y && list_eqb a' b' | _, _ => false end.
Definition opt_eqb {A} (e : A -> A -> bool) (a b : option A) : bool :=
  match a, b with None, None => true | Some x, Some y => e x y | _, _ => false end.
Definition sup_eqb (a b : sups) : bool :=
  match a, b with SupList x, SupList y | SupTuple x, SupTuple y => list_eqb x y | _, _ => false end.
Definition ocd_eqb (a b : ocd) : bool :=
  bytes_eqb (o_oid a) (o_oid b) && opt_eqb list_eqb (o_name a) (o_name b) && opt_eqb bytes_eqb (o_desc a) (o_desc b) &&
  Bool.eqb (o_obsolete a) (o_obsolete b) && sup_eqb (o_sup a) (o_sup b) && bytes_eqb (o_type a) (o_type b) &&
  list_eqb (o_must a) (o_must b) && list_eqb (o_may a) (o_may b).
(** bytes.upper(), and < of bytes *)
Definition up_byte (c : byte) : byte := if (97 <=? b2z c) && (b2z c <=? 122) then z2b (b2z c - 32) else c.
Fixpoint bytes_ltb (a b : bytes) : bool :=
  match a, b with
  | _, [] => false
  | [], _ => true
  | x :: a', y :: b' => if b2z x <? b2z y then true else if b2z y <? b2z x then false else bytes_ltb a' b'
  end.
(** schema.py 282-288: __lt__; the first name of an empty tuple is an IndexError *)
Definition ocd_lt (a b : ocd) : res bool :=
  match o_name a, o_name b with
  | Some (x :: _), Some (y :: _) => Ok (bytes_ltb (map up_byte x) (map up_byte y))
  | Some _, Some _ => Err EIndex
  | _, _ => Ok (bytes_ltb (o_oid a) (o_oid b))
  end.
(** schema.py 290-296: __gt__ *)
Definition ocd_gt (a b : ocd) : res bool :=
  match o_name a, o_name b with
  | Some (x :: _), Some (y :: _) => Ok (bytes_ltb (map up_byte y) (map up_byte x))
  | Some _, Some _ => Err EIndex
  | _, _ => Ok (bytes_ltb (o_oid b) (o_oid a))
  end.
(** schema.py 298-302: __le__, __ge__ *)
Definition ocd_le (a b : ocd) : res bool := if ocd_eqb a b then Ok true else ocd_lt a b.
Definition ocd_ge (a b : ocd) : res bool := if ocd_eqb a b then Ok true else ocd_gt a b.

(** ** Attribute types *)
(** schema.py 353-373: the attributes. A value of x_attrs is octets or a tuple. *)
Inductive xval := XStr (s : bytes) | XTuple (l : list bytes).
Record atd := mkAtd { a_oid : bytes; a_name : option (list bytes); a_desc : option bytes; a_obsolete : bool; a_sup : option bytes; a_equality : option bytes;
  a_ordering : option bytes; a_substr : option bytes; a_syntax : option bytes; a_single : bool; a_collective : bool; a_nomod : bool; a_usage : option bytes; a_x : list (bytes * xval) }.
(** schema.py 527-532: the check of the usage *)
Definition usages : list bytes := [B "userApplications"; B "directoryOperation"; B "distributedOperation"; B "dSAOperation"].
Definition usage_check (u : option bytes) : bool := match u with None => true | Some x => existsb (bytes_eqb x) usages end.
(** schema.py 494-506: the value of an experimental term *)
Definition p_xval (t : bytes) : res (xval * bytes) :=
  if is_at 39 t then do (s, r) <- cut 39 (tl t); Ok (XStr s, r)
  else if is_at 40 t then do (s, r) <- cut 41 (lstrip (tl t)); do l <- strings_to_list s; Ok (XTuple l, r)
  else Err EAssert.
(** schema.py 484-510: the experimental terms; each round takes at least one octet *)
Fixpoint p_x (fuel : nat) (t : bytes) : res (list (bytes * xval)) :=
  match fuel with
  | O => Err EFuel
  | S k =>
      let t' := lstrip t in
      do w <- peekWord t';
      match w with
      | None => Ok []
      | Some x =>
          if bytes_eqb (firstn 2 x) (B "X-") then
            do (v, r) <- p_xval (lstrip (skip x t')); do l <- p_x k r; Ok ((x, v) :: l)
          else Err EAssert
      end
  end.
(** schema.py 375-532: _parse *)
Definition parse_atd (t : bytes) : res atd :=
  do (oid, t1) <- p_open t;
  do (name, t2) <- p_name t1;
  do (desc, t3) <- p_desc t2;
  do (obs, t4) <- p_flag (B "OBSOLETE") t3;
  do (sup, t5) <- p_word (B "SUP") t4;
  do (equ, t6) <- p_word (B "EQUALITY") t5;
  do (ord, t7) <- p_word (B "ORDERING") t6;
  do (sub, t8) <- p_word (B "SUBSTR") t7;
  do (syn, t9) <- p_word (B "SYNTAX") t8;
  do (sv, t10) <- p_flag (B "SINGLE-VALUE") t9;
  do (co, t11) <- p_flag (B "COLLECTIVE") t10;
  do (nm, t12) <- p_flag (B "NO-USER-MODIFICATION") t11;
  do (us, t13) <- p_word (B "USAGE") t12;
  do x <- p_x (S (length t13)) t13;
  if negb (oid_check oid && name_check name && usage_check us) then Err EAssert
  else Ok (mkAtd oid name desc obs sup equ ord sub syn sv co nm us x).
(** schema.py 578-589: one experimental term *)
Definition print_x (x : bytes * xval) : bytes :=
  match x with
  | (n, XStr s) => n ++ B " '" ++ s ++ B "'"
  | (n, XTuple l) => n ++ B " ( " ++ join (B " ") (map q_str l) ++ B " )"
  end.
(** schema.py 553-590: toWire *)
Definition print_atd (d : atd) : bytes :=
  B "( " ++ a_oid d ++ B " " ++
  join NLSEP (optl (a_name d) (fun l => B "NAME " ++ q_list l) ++ optl (a_desc d) (fun s => B "DESC " ++ q_str s) ++
              flagl (a_obsolete d) (B "OBSOLETE") ++ optl (a_sup d) (fun w => B "SUP " ++ w) ++ optl (a_equality d) (fun w => B "EQUALITY " ++ w) ++
              optl (a_ordering d) (fun w => B "ORDERING " ++ w) ++ optl (a_substr d) (fun w => B "SUBSTR " ++ w) ++ optl (a_syntax d) (fun w => B "SYNTAX " ++ w) ++
              flagl (a_single d) (B "SINGLE-VALUE") ++ flagl (a_collective d) (B "COLLECTIVE") ++ flagl (a_nomod d) (B "NO-USER-MODIFICATION") ++
              optl (a_usage d) (fun w => B "USAGE " ++ w) ++ map print_x (a_x d)) ++ B " )".

(** ** Syntaxes *)
(** schema.py 603-607: the attributes *)
Record syd := mkSyd { y_oid : bytes; y_desc : option bytes; y_binary : bool; y_human : bool }.
(** schema.py 635-638, 642-645: a fixed number of octets is skipped *)
Definition p_true (kw t : bytes) : res (bool * bytes) :=
  do b <- peeks kw t; Ok (if b : bool then (true, lstrip (skipn (length kw + 8) t)) else (false, lstrip t)).
(** schema.py 612-653: _parse *)
Definition parse_syd (t : bytes) : res syd :=
  do (oid, t1) <- p_open t;
  do (desc, t2) <- p_desc t1;
  do (bin, t3) <- p_true (B "X-BINARY-TRANSFER-REQUIRED") t2;
  do (nhr, t4) <- p_true (B "X-NOT-HUMAN-READABLE") t3;
  if negb (bytes_eqb t4 []) then Err EAssert else if negb (oid_check oid) then Err EAssert
  else Ok (mkSyd oid desc bin (negb nhr)).
(** schema.py 655-665: toWire *)
Definition print_syd (d : syd) : bytes :=
  B "( " ++ join (B " ") (y_oid d :: optl (y_desc d) (fun s => B "DESC " ++ q_str s) ++
    flagl (y_binary d) (B "X-BINARY-TRANSFER-REQUIRED 'TRUE'") ++ flagl (negb (y_human d)) (B "X-NOT-HUMAN-READABLE 'TRUE'")) ++ B " )".

(** ** Matching rules *)
(** schema.py 690-695: the attributes *)
Record mrd := mkMrd { m_oid : bytes; m_name : option (list bytes); m_desc : option bytes; m_obsolete : bool; m_syntax : bytes }.
(** schema.py 700-762: _parse *)
Definition parse_mrd (t : bytes) : res mrd :=
  do (oid, t1) <- p_open t;
  do (name, t2) <- p_name t1;
  do (desc, t3) <- p_desc t2;
  do (obs, t4) <- p_flag (B "OBSOLETE") t3;
  do (syn, t5) <- p_word (B "SYNTAX") t4;
  if negb (bytes_eqb t5 []) then Err EAssert else if negb (oid_check oid) then Err EAssert
  else match syn with None | Some [] => Err EAssert | Some s => Ok (mkMrd oid name desc obs s) end.
(** schema.py 764-775: toWire *)
Definition print_mrd (d : mrd) : bytes :=
  B "( " ++ join (B " ") (m_oid d :: optl (m_name d) (fun l => B "NAME " ++ q_list l) ++ optl (m_desc d) (fun s => B "DESC " ++ q_str s) ++
    flagl (m_obsolete d) (B "OBSOLETE") ++ [B "SYNTAX " ++ m_syntax d]) ++ B " )".
