(** Model of ldaptor/protocols/ldap/fetchschema.py (all of it) and of LDAPEntry.namingContext
    (ldapsyntax.py 590-606), on top of the search of SyntaxModel and the parsers of SchemaModel.

    Simplifications:
    - the responses to a search are given as messages, already decoded (C41 is about how they reach
      the search); exceptions raised at once and failures of the Deferred are both [Err];
    - names of attributes given as text are encoded when the request is made. *)
From Verif Require Import Base Utf8Model DnModel EntryModel LdapModel ServerModel SyntaxModel SchemaModel.

(** ldapsyntax.py 60-61: NoContainingNamingContext *)
Definition ENoContext := EUser 45.

Section Fetch.
  Variable lower : str -> str.                      (** str.lower() *)
  Variable io : Z -> Z -> res Z.                    (** int(two characters, 16), see DnModel *)
  Variable order : list pyval -> list pyval.        (** the order in which a set of values is iterated *)

  (** ldaperrors.LDAPOther *)
  Definition EOther := ELdap 80.
  (** A search with scope base, sizeLimit 1 and these attributes: fetchschema.py 8-13, 40-45 *)
  Definition fs_search (attrs : list bytes) (net : option exn) (d : dn) : list obj * res cval :=
    c_search (Ok match_all) (Some attrs) 0 0 1 0 0 net (new_cent lower d []).
  (** 47-61: handleSearchResults of fetch: the value of subschemaSubentry *)
  Definition fs_subentry (found : list cent) : res pyval :=
    match found with
    | [] => Err EOther
    | [o] =>
        do _ <- check o;
        do b <- has_key lower (PStr (S_ "subschemaSubentry")) (y_entry o);
        if b then
          do a <- getitem lower (PStr (S_ "subschemaSubentry")) (y_entry o);
          match order (s_vals a) with [s] => Ok s | _ => Err EAssert end
        else Err EAssert
    | _ => Err EOther
    end.
  (** 15-34: handleSearchResults of _fetchCb *)
  Definition fs_schema (found : list cent) : res (list atd * list ocd) :=
    match found with
    | [] => Err EOther
    | [o] =>
        do _ <- check o;
        do ts <- get_values lower (PStr (S_ "attributeTypes")) (y_entry o);
        do ads <- mapR (fun t => do b <- to_bytes t; parse_atd b) (order ts);
        do os <- get_values lower (PStr (S_ "objectClasses")) (y_entry o);
        do ods <- mapR (fun t => do b <- to_bytes t; parse_ocd b) (order os);
        match ads with [] => Err EAssert | _ => Ok (ads, ods) end
    | _ => Err EOther
    end.
  (** DistinguishedName(v) of a value *)
  Definition value_dn (v : pyval) : res dn := match v with PStr s => parse_dn io s | PBytes b => to_dn io (VBytes b) end.

  (** A search, and what its callback makes of the responses; None: not over yet *)
  Definition after {A} (x : list obj * res cval) (msgs : list obj) (k : list cent -> list obj * option (res A)) : list obj * option (res A) :=
    match x with
    | (l, Err e) => (l, Some (Err e))
    | (l, Ok _) =>
        let s := search_run lower io false msgs (mkSres [] None) in
        match q_end s with
        | None => (l, None)
        | Some (Err e) => (l, Some (Err e))
        | Some (Ok _) => let (l', r) := k (q_found s) in (l ++ l', r)
        end
    end.
  (** 7-36: _fetchCb *)
  Definition fetch_cb (net : option exn) (s : pyval) (msgs : list obj) : list obj * option (res (list atd * list ocd)) :=
    match value_dn s with
    | Err e => ([], Some (Err e))
    | Ok d => after (fs_search [B "attributeTypes"; B "objectClasses"] net d) msgs (fun found => ([], Some (fs_schema found)))
    end.
  (** 39-64: fetch(client, baseObject): the requests sent, and the result. [net1], [net2]: what sending
      raises, if anything; [msgs1], [msgs2]: the responses to the two searches *)
  Definition fetch_schema (net1 net2 : option exn) (base : dn) (msgs1 msgs2 : list obj) : list obj * option (res (list atd * list ocd)) :=
    after (fs_search [B "subschemaSubentry"] net1 base) msgs1
      (fun found => match fs_subentry found with
                    | Err e => ([], Some (Err e))
                    | Ok s => fetch_cb net2 s msgs2
                    end).

  (** ldapsyntax.py 592-595: the inner loop of _cbNamingContext_Entries *)
  Fixpoint context_in (vs : list pyval) (self : dn) : res (option dn) :=
    match vs with
    | [] => Ok None
    | v :: r => do d <- value_dn v; if contains lower d self then Ok (Some d) else context_in r self
    end.
  (** 590-596: _cbNamingContext_Entries *)
  Fixpoint context_done (found : list cent) (self : dn) : res dn :=
    match found with
    | [] => Err ENoContext
    | o :: r =>
        do _ <- check o;
        do vs <- get_values lower (PStr (S_ "namingContexts")) (y_entry o);
        do x <- context_in (order vs) self;
        match x with Some d => Ok d | None => context_done r self end
    end.
  (** 598-606: namingContext: the DN of the entry that is returned *)
  Definition naming_context (net : option exn) (c : cent) (msgs : list obj) : list obj * option (res dn) :=
    after (c_naming_context lower net c) msgs (fun found => ([], Some (context_done found (y_dn c)))).
End Fetch.
