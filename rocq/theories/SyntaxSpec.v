(** Specification side of client-side entries: what modifications mean to a directory server, which
    edits are covered, and the executions of an entry with its server. *)
From Verif Require Import Base Utf8Model DnModel EntryModel EntrySpec LdapModel LdapSpec ServerModel SyntaxModel.

(** What a directory holds under one DN: attribute name in lower case, value. *)
Definition dmap := bytes -> bytes -> Prop.

(** RFC 4511 section 4.6, on octets: m turns [O] into [O']. An attribute without values does not
    exist. A strict server refuses to add a value that is there, or no value. *)
Definition omod (strict : bool) (m : modification) (O O' : dmap) : Prop :=
  let k := lower_bytes (m_attr m) in
  (forall k', k' <> k -> forall v, O' k' v <-> O k' v) /\
  ((m_op m = 0 /\ (strict = true -> m_values m <> [] /\ forall v, In v (m_values m) -> ~ O k v) /\
      forall v, O' k v <-> O k v \/ In v (m_values m)) \/
   (m_op m = 1 /\ m_values m = [] /\ (exists v, O k v) /\ forall v, ~ O' k v) \/
   (m_op m = 1 /\ m_values m <> [] /\ (forall v, In v (m_values m) -> O k v) /\ forall v, O' k v <-> O k v /\ ~ In v (m_values m)) \/
   (m_op m = 2 /\ forall v, O' k v <-> In v (m_values m))).
Fixpoint omods (strict : bool) (ms : list modification) (O O' : dmap) : Prop :=
  match ms with
  | [] => forall k v, O' k v <-> O k v
  | m :: r => exists O1, omod strict m O O1 /\ omods strict r O1 O'
  end.

(** What an entry says, in octets. *)
Definition octs (e : entry) : dmap := fun k v =>
  exists a kb, In a (e_attrs e) /\ to_bytes (s_key a) = Ok kb /\ lower_bytes kb = k /\ denotes (s_vals a) v.

(** The same name, as text or as octets. *)
Definition spells (k k' : pyval) : Prop := exists b, to_bytes k = Ok b /\ to_bytes k' = Ok b.
Definition ascii (s : str) : Prop := Forall (fun c => 0 <= c < 128) s.
(** An attribute name: of type [kt]; when it is text, in ASCII. *)
Definition name (kt : bool) (k : pyval) : Prop := typed kt k /\ forall s, k = PStr s -> ascii s.

Section Spec.
  Variable lower : str -> str.
  Variable io : Z -> Z -> res Z.
  Variable oc_first : bool.

  Definition ent_ok (kt vt : bool) (e : entry) : Prop :=
    entry_ok lower kt vt e /\ Forall (fun a => name kt (s_key a)) (e_attrs e).

  (** The edits that are covered: names of the entry's type (to get a set: of either type), values of
      the entry's type, no inherited set method, no iterator in place of a list, no removal of an
      attribute that is there without values; with a strict server, no addition of a value that is
      there. *)
  Definition fits (strict kt vt : bool) (x : cedit) (c : cent) : Prop :=
    match x with
    | COn k m =>
        convertible k /\
        forall a, getitem lower k (y_entry c) = Ok a ->
          match m with
          | SAdd v => typed vt v /\ (strict = true -> ~ In v (s_vals a))
          | SUpdate s => exists vs, s = Listed vs /\ Forall (typed vt) vs /\
                           (strict = true -> vs <> [] /\ forall v, In v vs -> ~ In v (s_vals a))
          | SRemove v => True
          | SClear => s_vals a <> []
          | SDiscard _ => False
          end
    | CSet k s => name kt k /\ exists vs, s = Listed vs /\ Forall (typed vt) vs
    | CDel k => name kt k /\ forall a, getitem lower k (y_entry c) = Ok a -> s_vals a <> []
    end.

  (** An entry with the server's copy and the commit that waits for its answer, if any. The user
      edits, undoes and commits when no answer is due. The server applies the modifications, or
      refuses them and changes nothing; then it answers. *)
  Definition world := (cent * dmap * option obj)%type.
  Inductive wstep (strict kt vt : bool) : world -> world -> Prop :=
  | W_edit x c c' r O : fits strict kt vt x c -> c_edit lower x c = (c', r) -> wstep strict kt vt (c, O, None) (c', O, None)
  | W_undo c c' r O : c_undo lower oc_first c = (c', r) -> wstep strict kt vt (c, O, None) (c', O, None)
  | W_commit c O net o r : c_commit net c = ([o], r) -> wstep strict kt vt (c, O, None) (c, O, Some o)
  | W_commit_nothing c O net r : c_commit net c = ([], r) -> wstep strict kt vt (c, O, None) (c, O, None)
  | W_accepted c c' r O O' d ms m : omods strict ms O O' ->
      commit_success lower oc_first (response_obj (ModifyResponse (mkResult 0 [] m))) c = (c', r) ->
      wstep strict kt vt (c, O, Some (request_obj (Modify d ms))) (c', O', None)
  | W_refused c c' r O o x : r_code x <> 0 ->
      commit_success lower oc_first (response_obj (ModifyResponse x)) c = (c', r) ->
      wstep strict kt vt (c, O, Some o) (c', O, None).
  Inductive wreach (strict kt vt : bool) (w : world) : world -> Prop :=
  | W_here : wreach strict kt vt w w
  | W_more w1 w2 : wreach strict kt vt w w1 -> wstep strict kt vt w1 w2 -> wreach strict kt vt w w2.

  (** *** Edits and commits in any order (C44) *)
  (** An answer can be anything; [NLost]: the Deferred of a commit fails without one. *)
  Inductive nact := NEdit (x : cedit) | NCommit (net : option exn) | NAnswer (msg : obj) | NLost | NUndo.
  (** The entry, the requests sent so far, the number of commits that wait. *)
  Record nsys := mkN { n_cent : cent; n_sent : list obj; n_waiting : nat }.
  Definition nstep (a : nact) (s : nsys) : nsys :=
    match a with
    | NEdit x => mkN (fst (c_edit lower x (n_cent s))) (n_sent s) (n_waiting s)
    | NUndo => mkN (fst (c_undo lower oc_first (n_cent s))) (n_sent s) (n_waiting s)
    | NCommit net =>
        match c_commit net (n_cent s) with
        | (l, _) => mkN (n_cent s) (n_sent s ++ l) (n_waiting s + length l)
        end
    | NAnswer msg =>
        match n_waiting s with
        | O => s
        | S n => mkN (fst (commit_success lower oc_first msg (n_cent s))) (n_sent s) n
        end
    | NLost => mkN (n_cent s) (n_sent s) (pred (n_waiting s))
    end.
  Definition nrun (l : list nact) (s : nsys) : nsys := fold_left (fun s a => nstep a s) l s.
  (** Request [o] carries modification [m]. *)
  Definition carries (o : obj) (m : delta) : Prop :=
    exists d ms key vals, o = request_obj (Modify d ms) /\ to_bytes (d_key m) = Ok key /\ mapR to_bytes (d_vals m) = Ok vals /\
      In (mkMod (match d_kind m with MAdd => 0 | MDelete => 1 | MReplace => 2 end) key vals) ms.

  (** *** Search (C46) *)
  (** What a response to a search contributes: an entry as the server sent it. *)
  Definition is_entry (r : response) : bool := match r with SearchEntry _ _ => true | _ => false end.
  Definition search_part (r : response) : Prop :=
    match r with
    | SearchEntry dn ats => (exists t d, utf8_decode dn = Ok t /\ parse_dn io t = Ok d) /\ NoDup (map fst ats)
    | SearchReference _ => True
    | _ => False
    end.
  (** The entry has the DN and the attributes that were sent; nothing is edited. *)
  Definition entry_sent (r : response) (c : cent) : Prop :=
    match r with
    | SearchEntry dn ats =>
        (exists t, utf8_decode dn = Ok t /\ parse_dn io t = Ok (y_dn c)) /\
        (forall k v, octs (y_entry c) k v <-> exists k' vs, In (k', vs) ats /\ lower_bytes k' = k /\ In v vs) /\
        y_remote c = y_entry c /\ y_journal c = [] /\ y_deleted c = false
    | _ => False
    end.

  (** *** Calls one after another, each with or without a working connection (C45) *)
  Fixpoint calls (ks : list (option exn * call)) (c : cent) : cent * list (list obj * res cval) :=
    match ks with
    | [] => (c, [])
    | (net, k) :: r => match run_call lower oc_first net k c with (c', l, o) => match calls r c' with (c2, os) => (c2, (l, o) :: os) end end
    end.
  (** The calls that look at the state *)
  Definition checked (k : call) : Prop := match k with KBind _ | KLookup _ | KNamingContext => False | _ => True end.

  (** *** The RDN (C73) *)
  (** The entry has this part of its RDN as an attribute, under the very same name. *)
  Definition rdn_held (a : atv) (e : entry) : Prop :=
    exists s, In s (e_attrs e) /\ s_key s = PStr (a_type a) /\ In (PStr (a_value a)) (s_vals s).
  Definition keys_once (e : entry) : Prop := NoDup (map (fun s => lowv lower (s_key s)) (e_attrs e)).
  (** Whoever sets or deletes this attribute spells its name as the DN does; no inherited set method. *)
  Definition spelled (a : atv) (x : cedit) : Prop :=
    match x with
    | COn _ (SDiscard _) => False
    | COn _ _ => True
    | CSet k _ | CDel k => lowv lower k = lowv lower (PStr (a_type a)) -> k = PStr (a_type a)
    end.
  (** A modification that leaves the value where it is *)
  Definition spares (a : atv) (m : delta) : Prop :=
    d_key m = PStr (a_type a) -> d_kind m = MAdd \/ (d_kind m = MDelete /\ d_vals m <> [] /\ ~ In (PStr (a_value a)) (d_vals m)).

  (** *** What the requests say (C74) *)
  (** Attributes as they are sent *)
  Definition attr_sent (kv : pyval * list pyval) (x : bytes * list bytes) : Prop :=
    to_bytes (fst kv) = Ok (fst x) /\ Forall2 (fun v b => to_bytes v = Ok b) (snd kv) (snd x).
End Spec.

(** *** Fetch (C75) *)
(** The attribute with this name in lower case is among the names given, or in the entry. *)
Definition named (ks : list pyval) (k : bytes) : Prop := exists n b, In n ks /\ to_bytes n = Ok b /\ lower_bytes b = k.
Definition sent (ats : list (bytes * list bytes)) : dmap := fun k v => exists k' vs, In (k', vs) ats /\ lower_bytes k' = k /\ In v vs.
Definition sent_name (ats : list (bytes * list bytes)) (k : bytes) : Prop := exists k' vs, In (k', vs) ats /\ lower_bytes k' = k.
(** Names and values that are UTF-8 text *)
Definition all_text (ats : list (bytes * list bytes)) : Prop :=
  forall k vs, In (k, vs) ats -> (exists s, utf8_decode k = Ok s) /\ forall v, In v vs -> exists s, utf8_decode v = Ok s.
