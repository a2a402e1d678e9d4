(** Specification side of filters as text: the grammar of RFC 2254 as a relation between filters and
    texts, as far as ldapfilter.py supports it. *)
From Verif Require Import Base Utf8Model DnModel FilterTextModel.

(** A letter; a letter, digit, semicolon or hyphen. *)
Definition letter (c : Z) : Prop := 65 <= c <= 90 \/ 97 <= c <= 122.
Definition decimal (c : Z) : Prop := 48 <= c <= 57.
Definition name_char (c : Z) : Prop := letter c \/ decimal c \/ c = 59 \/ c = 45.
(** An attribute description. *)
Definition is_name (a : str) : Prop := exists c r, a = c :: r /\ letter c /\ Forall name_char r.
(** A dotted number. *)
Inductive is_number : str -> Prop :=
| num_one d : d <> [] -> Forall decimal d -> is_number d
| num_dot d r : d <> [] -> Forall decimal d -> is_number r -> is_number (d ++ 46 :: r).
Definition is_rule (r : str) : Prop := is_name r \/ is_number r.
Definition starts_dn (r : str) : Prop := exists t, r = S_ "dn" ++ t.

(** [spells v s]: the text s stands for the value v. Each character is itself, or two hexadecimal
    digits after a backslash. *)
Inductive spells : str -> str -> Prop :=
| sp_nil : spells [] []
| sp_plain c v s : ~ In c [42; 40; 41; 92; 0] -> spells v s -> spells (c :: v) (c :: s)
| sp_hex h l x y v s : hexval h = Some x -> hexval l = Some y -> spells v s -> spells (16 * x + y :: v) (92 :: h :: l :: s).
Definition value_text (v s : str) : Prop := v <> [] /\ spells v s.

(** A list of values, each followed by an asterisk. *)
Inductive stars : list str -> str -> Prop :=
| st_nil : stars [] []
| st_cons v s vs ss : value_text v s -> stars vs ss -> stars (v :: vs) (s ++ 42 :: ss).
Definition opt_text (o : option str) (s : str) : Prop :=
  match o with Some v => value_text v s | None => s = [] end.

(** [written f s]: s is a text of f. Presence is an attribute equal to an asterisk, so a filter on
    substrings has at least one of them. Without ":dn" a matching rule must not begin with "dn": the
    grammar takes that for the flag. *)
Inductive written : tf -> str -> Prop :=
| w_and f s fs ss : written f s -> written_all fs ss -> written (TAnd (f :: fs)) (S_ "(&" ++ (s ++ ss) ++ S_ ")")
| w_or f s fs ss : written f s -> written_all fs ss -> written (TOr (f :: fs)) (S_ "(|" ++ (s ++ ss) ++ S_ ")")
| w_not f s : written f s -> written (TNot f) (S_ "(!" ++ s ++ S_ ")")
| w_cmp c a v s : is_name a -> value_text v s -> written (TCmp c a v) (S_ "(" ++ a ++ cmp_text c ++ s ++ S_ ")")
| w_present a : is_name a -> written (TPresent a) (S_ "(" ++ a ++ S_ "=*" ++ S_ ")")
| w_sub a i vs f si ss sf : is_name a -> opt_text i si -> stars vs ss -> opt_text f sf ->
    list_of i ++ vs ++ list_of f <> [] ->
    written (TSub a (map SInitial (list_of i) ++ map SAny vs ++ map SFinal (list_of f))) (S_ "(" ++ a ++ S_ "=" ++ si ++ 42 :: ss ++ sf ++ S_ ")")
| w_ext (ty rule : option str) (d : bool) v s :
    (ty <> None \/ rule <> None) ->
    (forall a, ty = Some a -> is_name a) ->
    (forall r, rule = Some r -> is_rule r /\ (d = false -> ~ starts_dn r)) ->
    value_text v s ->
    written (TExt rule ty v (Some d))
      (S_ "(" ++ match ty with Some a => a | None => [] end ++ (if d then S_ ":dn" else []) ++
       match rule with Some r => 58 :: r | None => [] end ++ S_ ":=" ++ s ++ S_ ")")
with written_all : list tf -> str -> Prop :=
| wa_nil : written_all [] []
| wa_cons f s fs ss : written f s -> written_all fs ss -> written_all (f :: fs) (s ++ ss).
Scheme written_mind := Minimality for written Sort Prop
  with written_all_mind := Minimality for written_all Sort Prop.
Combined Scheme written_both from written_mind, written_all_mind.

(** Levels of nesting. *)
Fixpoint nesting (f : tf) : nat :=
  let deepest := fix deepest fs := match fs with [] => 0%nat | x :: r => Nat.max (nesting x) (deepest r) end in
  match f with TAnd fs | TOr fs => S (deepest fs) | TNot x => S (nesting x) | _ => 1%nat end.

(** Filters that have a text: names and rules in the grammar, values not empty, at least one filter in
    a conjunction or disjunction, substrings in order and at least one, dnAttributes given. *)
Definition ordered (ss : list sub) : Prop := exists i vs f, ss = map SInitial (list_of i) ++ map SAny vs ++ map SFinal (list_of f).
Definition sub_value (s : sub) : str := match s with SInitial v | SAny v | SFinal v => v end.
Inductive sound_filter (ok : str -> Prop) : tf -> Prop :=
| sf_and fs : fs <> [] -> Forall (sound_filter ok) fs -> sound_filter ok (TAnd fs)
| sf_or fs : fs <> [] -> Forall (sound_filter ok) fs -> sound_filter ok (TOr fs)
| sf_not f : sound_filter ok f -> sound_filter ok (TNot f)
| sf_cmp c a v : is_name a -> ok v -> sound_filter ok (TCmp c a v)
| sf_present a : is_name a -> sound_filter ok (TPresent a)
| sf_sub a ss : is_name a -> ss <> [] -> ordered ss -> Forall (fun s => ok (sub_value s)) ss -> sound_filter ok (TSub a ss)
| sf_ext ty rule d v : (ty <> None \/ rule <> None) -> (forall a, ty = Some a -> is_name a) ->
    (forall r, rule = Some r -> is_rule r /\ (d = false -> ~ starts_dn r)) -> ok v -> sound_filter ok (TExt rule ty v (Some d)).

(** ** Templates *)
(** [put P u s]: s with every P replaced by u. *)
Definition put (P : Z) (u : str) (s : str) : str := flat_map (fun c => if c =? P then u else [c]) s.
Definition put_sub (P : Z) (u : str) (s : sub) : sub :=
  match s with SInitial v => SInitial (put P u v) | SAny v => SAny (put P u v) | SFinal v => SFinal (put P u v) end.
(** The same in the values of a filter, and nowhere else. *)
Fixpoint fill (P : Z) (u : str) (f : tf) : tf :=
  match f with
  | TAnd fs => TAnd (map (fill P u) fs)
  | TOr fs => TOr (map (fill P u) fs)
  | TNot x => TNot (fill P u x)
  | TCmp c a v => TCmp c a (put P u v)
  | TPresent a => TPresent a
  | TSub a ss => TSub a (map (put_sub P u) ss)
  | TExt rule ty v d => TExt rule ty (put P u v) d
  end.
(** The character P, above U+00FF, has no part in the grammar but in values. *)
Definition marker (P : Z) : Prop := 255 < P.
Definition no_tab (s : str) : Prop := ~ In 9 s.
