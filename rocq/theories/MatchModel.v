(** Model of ldaptor/entryhelpers.py, MatchMixin (147-237). Filters are those that decoding gives
    (LdapSpec.filter), so attribute types and assertion values are bytes. *)
From Verif Require Import Base Utf8Model DnModel EntryModel LdapSpec.

(** ldapsyntax.MatchNotImplemented *)
Definition EMatchNotImpl : exn := EUser 3.

(** x.find(p) for bytes, p maybe empty: what is left of x from the first occurrence on. *)
Fixpoint find_from (p s : bytes) (ls : bytes) {struct ls} : option bytes :=
  if starts_with p ls then Some s
  else match ls, s with
       | _ :: ls', _ :: s' => find_from p s' ls'
       | _, _ => None
       end.
(** i = s.lower().find(p.lower()), then s[i:] if i >= 0 (190-193) *)
Definition cut_at (p s : bytes) : option bytes := find_from (lower_bytes p) s (lower_bytes s).
(** x[:-n] for n >= 0: x[:-0] is empty *)
Definition drop_last (n : Z) (x : bytes) : bytes := if n =? 0 then [] else ztake (zlen x - n) x.

Section Match.
  Variable lower : str -> str.

  (** v.lower() for each value *)
  Definition lowers (vs : list pyval) : list pyval := map (lowv lower) vs.

  (** any value of get_strings(a) in self (149-152) *)
  Fixpoint any_key (ks : list pyval) (e : entry) : res bool :=
    match ks with
    | [] => Ok false
    | k :: r => do b <- has_key lower k e; if b then Ok true else any_key r e
    end.
  (** 155-160 *)
  Fixpoint any_value (vs : list pyval) (attr : pyval) (e : entry) : res bool :=
    match vs with
    | [] => Ok false
    | v :: r =>
        do l <- get_values lower attr e;
        if mem v (lowers l) then Ok true else any_value r attr e
    end.

  (** A value on which a bytes method with a bytes argument is called: text raises TypeError. *)
  Definition as_bytes_value (v : pyval) : res bytes := match v with PBytes b => Ok b | PStr _ => Err EType end.

  (** 167-175: the initial part *)
  Definition sub_initial (parts : list (subkind * bytes)) (ms : list pyval)
    : res (list (subkind * bytes) * list pyval) :=
    match parts with
    | (SInitial, i) :: r =>
        do bs <- mapR as_bytes_value ms;
        Ok (r, map (fun x => PBytes (zdrop (zlen i) x))
                   (List.filter (fun x => starts_with (lower_bytes i) (lower_bytes x)) bs))
    | _ => Ok (parts, ms)
    end.
  (** 177-185: the final part. [all] is filter.substrings, of which the first element's length is
      used, [parts] is what the initial part left. *)
  Definition sub_final (all parts : list (subkind * bytes)) (ms : list pyval)
    : res (list (subkind * bytes) * list pyval) :=
    match parts, last all (SAny, []) with
    | _ :: _, (SFinal, f) =>
        do bs <- mapR as_bytes_value ms;
        Ok (removelast parts,
            map (fun x => PBytes (drop_last (match all with (_, p) :: _ => zlen p | [] => 0 end) x))
                (List.filter (fun x => ends_with (lower_bytes f) (lower_bytes x)) bs))
    | _, _ => Ok (parts, ms)
    end.
  (** 187-195: the loop over the middle parts, and 196-198 *)
  Fixpoint sub_any (parts : list (subkind * bytes)) (ms : list pyval) : res bool :=
    match ms with
    | [] => Ok false
    | _ =>
        match parts with
        | [] => Ok true
        | (SAny, p) :: r =>
            do bs <- mapR as_bytes_value ms;
            sub_any r (flat_map (fun x => match cut_at p x with Some y => [PBytes y] | None => [] end) bs)
        | _ => Err EAssert
        end
    end.

  (** 199-214: for value in self[attr]: if value >= v / value <= v *)
  Fixpoint any_cmp (cmp : bytes -> bool) (vs : list pyval) : res bool :=
    match vs with
    | [] => Ok false
    | v :: r => do b <- as_bytes_value v; if cmp b then Ok true else any_cmp cmp r
    end.

  (** 230-234: the attributes of the DN. A type of the DN is text; attrib is bytes. *)
  Definition dn_matches (attrib match_value_lower : pyval) (d : dn) : bool :=
    existsb (existsb (fun av => pyval_eqb attrib (PStr (a_type av)) &&
                                pyval_eqb match_value_lower (PStr (lower (a_value av))))) d.

  (** 147-237: match(filter) *)
  Fixpoint matches (e : entry) (f : filter) : res bool :=
    match f with
    | FPresent a => do ks <- get_strings (PBytes a); any_key ks e
    | FEq a v => do vs <- get_strings (PBytes (lower_bytes v)); any_value vs (PBytes a) e
    | FSubstr a parts =>
        do h <- has_key lower (PBytes a) e;
        if negb h then Ok false
        else
          do s <- getitem lower (PBytes a) e;
          do (p1, m1) <- sub_initial parts (s_vals s);
          do (p2, m2) <- sub_final parts p1 m1;
          sub_any p2 m2
    | FGe a v =>
        do h <- has_key lower (PBytes a) e;
        if negb h then Ok false
        else do s <- getitem lower (PBytes a) e; any_cmp (fun x => bytes_leb v x) (s_vals s)
    | FLe a v =>
        do h <- has_key lower (PBytes a) e;
        if negb h then Ok false
        else do s <- getitem lower (PBytes a) e; any_cmp (fun x => bytes_leb x v) (s_vals s)
    | FAnd l =>
        (fix all l := match l with
                      | [] => Ok true
                      | g :: r => do b <- matches e g; if negb b then Ok false else all r
                      end) l
    | FOr l =>
        (fix any l := match l with
                      | [] => Ok false
                      | g :: r => do b <- matches e g; if b then Ok true else any r
                      end) l
    | FNot g => do b <- matches e g; Ok (negb b)
    | FExt None t v _ =>
        match t with
        | None => Err EAttr
        | Some a =>
            do l <- get_values lower (PBytes a) e;
            if mem (PBytes (lower_bytes v)) (lowers l) then Ok true
            else Ok (dn_matches (PBytes a) (PBytes (lower_bytes v)) (e_dn e))
        end
    | FExt (Some _) _ _ _ | FApprox _ _ => Err EMatchNotImpl
    end.
End Match.
