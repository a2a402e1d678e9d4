(** Specification side of schema descriptions: the grammars given in the docstrings of schema.py, as
    relations between descriptions and text, independent of the parsers and printers. White space
    around fields may be any amount of any ASCII white space, but at least one. *)
From Verif Require Import Base SchemaModel.

Definition is_space (c : byte) : Prop := In (b2z c) [32; 9; 10; 11; 12; 13].
(** White space that may be missing; white space that is there. *)
Definition gap (g : bytes) : Prop := Forall is_space g.
Definition gap1 (g : bytes) : Prop := gap g /\ g <> [].
Definition no (c : Z) (s : bytes) : Prop := Forall (fun b => b2z b <> c) s.

(** A word: no white space in it. *)
Definition word (w : bytes) : Prop := w <> [] /\ Forall (fun b => ~ is_space b) w.
(** numericoid: digits and dots *)
Definition numeric (w : bytes) : Prop := w <> [] /\ Forall (fun b => 48 <= b2z b <= 57 \/ b2z b = 46) w.
(** An OID by itself (does not begin like a list), an OID in a list. *)
Definition lone (w : bytes) : Prop := word w /\ forall b r, w = b :: r -> b2z b <> 40.
Definition listed (w : bytes) : Prop := word w /\ no 36 w /\ no 41 w.

(** qdstring, qdescrs *)
Definition str_text (s t : bytes) : Prop := no 39 s /\ t = B "'" ++ s ++ B "'".
Inductive strs_seq : list bytes -> bytes -> Prop :=
| StrsNil : strs_seq [] []
| StrsCons s l x g t : str_text s x -> no 41 s -> gap g -> strs_seq l t -> strs_seq (s :: l) (x ++ g ++ t).
Definition strs_text (l : list bytes) (t : bytes) : Prop :=
  (exists s, l = [s] /\ str_text s t) \/ (exists g x, gap g /\ strs_seq l x /\ t = B "(" ++ g ++ x ++ B ")").
(** oids: one, or a list in parentheses with "$" between *)
Inductive oid_seq : list bytes -> bytes -> Prop :=
| OidLast w g : listed w -> gap g -> oid_seq [w] (w ++ g)
| OidCons w l g g' t : listed w -> gap g -> gap g' -> oid_seq l t -> oid_seq (w :: l) (w ++ g ++ B "$" ++ g' ++ t).
Definition oids_text (v : bool * list bytes) (t : bytes) : Prop :=
  match v with
  | (false, l) => exists w, l = [w] /\ lone w /\ t = w
  | (true, l) => exists g x, gap g /\ oid_seq l x /\ t = B "(" ++ g ++ x ++ B ")"
  end.
Definition word_text (w t : bytes) : Prop := word w /\ t = w.

(** An optional field: nothing, or white space, the keyword, white space and a value. *)
Definition opt_text {A} (kw : bytes) (P : A -> bytes -> Prop) (o : option A) (t : bytes) : Prop :=
  match o with
  | None => t = []
  | Some v => exists g g' x, gap1 g /\ gap1 g' /\ P v x /\ t = g ++ kw ++ g' ++ x
  end.
Definition flag_text (kw : bytes) (b : bool) (t : bytes) : Prop :=
  if b then exists g, gap1 g /\ t = g ++ kw else t = [].

(** ObjectClassDescription *)
Definition kinds : list bytes := [B "ABSTRACT"; B "STRUCTURAL"; B "AUXILIARY"].
Definition kind_text (k t : bytes) : Prop :=
  (In k kinds /\ exists g, gap1 g /\ t = g ++ k) \/ (k = B "STRUCTURAL" /\ t = []).
Definition sup_of (s : sups) : option (bool * list bytes) :=
  match s with SupList [] => None | SupList l => Some (false, l) | SupTuple l => Some (true, l) end.
Definition oids_of (kw : bytes) (l : list bytes) (t : bytes) : Prop :=
  match l with [] => t = [] | _ => exists b, opt_text kw oids_text (Some (b, l)) t end.
Definition ocd_text (d : ocd) (t : bytes) : Prop :=
  exists g t1 t2 t3 t4 t5 t6 t7 g',
    gap g /\ gap g' /\ numeric (o_oid d) /\ o_name d <> Some [] /\
    t = B "(" ++ g ++ o_oid d ++ t1 ++ t2 ++ t3 ++ t4 ++ t5 ++ t6 ++ t7 ++ g' ++ B ")" /\
    opt_text (B "NAME") strs_text (o_name d) t1 /\ opt_text (B "DESC") str_text (o_desc d) t2 /\ flag_text (B "OBSOLETE") (o_obsolete d) t3 /\
    opt_text (B "SUP") oids_text (sup_of (o_sup d)) t4 /\ kind_text (o_type d) t5 /\
    oids_of (B "MUST") (o_must d) t6 /\ oids_of (B "MAY") (o_may d) t7.

(** AttributeTypeDescription; the values of USAGE (RFC 4512 4.1.2) *)
Definition rfc_usages : list bytes := [B "userApplications"; B "directoryOperation"; B "distributedOperation"; B "dSAOperation"].
Definition xval_text (v : xval) (t : bytes) : Prop :=
  match v with
  | XStr s => str_text s t
  | XTuple l => exists g x, gap g /\ strs_seq l x /\ t = B "(" ++ g ++ x ++ B ")"
  end.
Inductive x_text : list (bytes * xval) -> bytes -> Prop :=
| XNil : x_text [] []
| XCons n v l t t' : word n -> firstn 2 n = B "X-" -> opt_text n xval_text (Some v) t -> x_text l t' -> x_text ((n, v) :: l) (t ++ t').
Definition atd_text (d : atd) (t : bytes) : Prop :=
  exists g t1 t2 t3 t4 t5 t6 t7 t8 t9 t10 t11 t12 t13 g',
    gap g /\ gap g' /\ numeric (a_oid d) /\ a_name d <> Some [] /\ (forall u, a_usage d = Some u -> In u rfc_usages) /\
    t = B "(" ++ g ++ a_oid d ++ t1 ++ t2 ++ t3 ++ t4 ++ t5 ++ t6 ++ t7 ++ t8 ++ t9 ++ t10 ++ t11 ++ t12 ++ t13 ++ g' ++ B ")" /\
    opt_text (B "NAME") strs_text (a_name d) t1 /\ opt_text (B "DESC") str_text (a_desc d) t2 /\ flag_text (B "OBSOLETE") (a_obsolete d) t3 /\
    opt_text (B "SUP") word_text (a_sup d) t4 /\ opt_text (B "EQUALITY") word_text (a_equality d) t5 /\ opt_text (B "ORDERING") word_text (a_ordering d) t6 /\
    opt_text (B "SUBSTR") word_text (a_substr d) t7 /\ opt_text (B "SYNTAX") word_text (a_syntax d) t8 /\
    flag_text (B "SINGLE-VALUE") (a_single d) t9 /\ flag_text (B "COLLECTIVE") (a_collective d) t10 /\ flag_text (B "NO-USER-MODIFICATION") (a_nomod d) t11 /\
    opt_text (B "USAGE") word_text (a_usage d) t12 /\ x_text (a_x d) t13.

(** SyntaxDescription, with the two terms that the code knows. The code skips one character after 'TRUE'. *)
Definition true_text (kw : bytes) (b : bool) (t : bytes) : Prop :=
  if b then exists g, gap1 g /\ t = g ++ kw ++ B " 'TRUE'" else t = [].
Definition syd_text (d : syd) (t : bytes) : Prop :=
  exists g t1 t2 t3 g', gap g /\ gap g' /\ numeric (y_oid d) /\ t = B "(" ++ g ++ y_oid d ++ t1 ++ t2 ++ t3 ++ g' ++ B ")" /\
    opt_text (B "DESC") str_text (y_desc d) t1 /\ true_text (B "X-BINARY-TRANSFER-REQUIRED") (y_binary d) t2 /\ true_text (B "X-NOT-HUMAN-READABLE") (negb (y_human d)) t3.
(** MatchingRuleDescription *)
Definition mrd_text (d : mrd) (t : bytes) : Prop :=
  exists g t1 t2 t3 t4 g', gap g /\ gap g' /\ numeric (m_oid d) /\ t = B "(" ++ g ++ m_oid d ++ t1 ++ t2 ++ t3 ++ t4 ++ g' ++ B ")" /\
    opt_text (B "NAME") strs_text (m_name d) t1 /\ opt_text (B "DESC") str_text (m_desc d) t2 /\ flag_text (B "OBSOLETE") (m_obsolete d) t3 /\
    opt_text (B "SYNTAX") word_text (Some (m_syntax d)) t4.

(** ** Descriptions that the grammars can say *)
Definition name_ok (n : option (list bytes)) : Prop :=
  match n with None => True | Some [] => False | Some [s] => no 39 s | Some l => Forall (fun s => no 39 s /\ no 41 s) l end.
Definition desc_ok (o : option bytes) : Prop := match o with None => True | Some s => no 39 s end.
Definition word_opt (o : option bytes) : Prop := match o with None => True | Some w => word w end.
Definition oids_ok (l : list bytes) : Prop := match l with [] => True | [w] => lone w | _ => Forall listed l end.
(** One superior is a list, more are a tuple. *)
Definition sup_ok (s : sups) : Prop :=
  oids_ok (sup_items s) /\ match s with SupList (_ :: _ :: _) => False | SupTuple ([] | [_]) => False | _ => True end.
Definition ocd_ok (d : ocd) : Prop :=
  numeric (o_oid d) /\ name_ok (o_name d) /\ desc_ok (o_desc d) /\ sup_ok (o_sup d) /\ In (o_type d) kinds /\ oids_ok (o_must d) /\ oids_ok (o_may d).
Definition x_ok (x : bytes * xval) : Prop :=
  word (fst x) /\ firstn 2 (fst x) = B "X-" /\ match snd x with XStr s => no 39 s | XTuple l => Forall (fun s => no 39 s /\ no 41 s) l end.
Definition words_there (d : atd) : Prop :=
  forall o, In o [a_sup d; a_equality d; a_ordering d; a_substr d; a_syntax d] -> o <> Some [].
Definition atd_ok (d : atd) : Prop :=
  numeric (a_oid d) /\ name_ok (a_name d) /\ desc_ok (a_desc d) /\
  Forall word_opt [a_sup d; a_equality d; a_ordering d; a_substr d; a_syntax d] /\ (forall u, a_usage d = Some u -> In u rfc_usages) /\ Forall x_ok (a_x d).
Definition syd_ok (d : syd) : Prop := numeric (y_oid d) /\ desc_ok (y_desc d).
Definition mrd_ok (d : mrd) : Prop := numeric (m_oid d) /\ name_ok (m_name d) /\ desc_ok (m_desc d) /\ word (m_syntax d).

(** ** Order of object classes *)
(** Octets in order: at the first place where they differ, or when one ends. *)
Inductive before : bytes -> bytes -> Prop :=
| BeforeEnd y b : before [] (y :: b)
| BeforeHere x y a b : b2z x < b2z y -> before (x :: a) (y :: b)
| BeforeLater x a b : before a b -> before (x :: a) (x :: b).
(** The same octets with capital ASCII letters. *)
Definition fold_char (c d : byte) : Prop := (97 <= b2z c <= 122 /\ b2z d = b2z c - 32) \/ (~ (97 <= b2z c <= 122) /\ d = c).
Definition folded (x k : bytes) : Prop := Forall2 fold_char x k.
(** The first name of a description, in capitals. *)
Definition named_as (d : ocd) (k : bytes) : Prop := exists x l, o_name d = Some (x :: l) /\ folded x k.
