(** What C95 says, apart from the model's steps. *)
From Verif Require Import Base Utf8Model DnModel EntryModel UtilModel SyntaxModel AutofillModel.

(** The number an identifier comes from: of the user or of the group. *)
Definition num_name (user : bool) : str := if user then S_ "uidNumber" else S_ "gidNumber".
(** The identifier that belongs to a number: attribute and value. *)
Definition id_of (user : bool) (f : filler) (n : Z) : option (str * str) :=
  let i := if user then 2 * n + 1000 else 2 * n + 1001 in
  match f, user with
  | FPosix, _ => None
  | FSamba, true => Some (S_ "rid", dec i)
  | FSamba, false => Some (S_ "primaryGroupID", dec i)
  | FSam sid _, true => Some (S_ "sambaSID", sid ++ S_ "-" ++ dec i)
  | FSam sid None, false => Some (S_ "sambaPrimaryGroupSID", sid ++ S_ "-" ++ dec i)
  | FSam _ (Some _), false => None
  end.
Definition id_names : list str := [S_ "rid"; S_ "primaryGroupID"; S_ "sambaSID"; S_ "sambaPrimaryGroupSID"].
Definition num_names : list str := [S_ "uidNumber"; S_ "gidNumber"].

(** What a new account gets. *)
Definition defaults (f : filler) : list (str * str) :=
  match f with
  | FPosix => [(S_ "loginShell", S_ "/bin/sh")]
  | FSamba => [(S_ "acctFlags", S_ "[UX         ]"); (S_ "pwdLastSet", S_ "0"); (S_ "logonTime", S_ "0"); (S_ "logoffTime", S_ "0");
               (S_ "pwdCanChange", S_ "0"); (S_ "pwdMustChange", S_ "0")]
  | FSam sid fixed =>
      [(S_ "sambaAcctFlags", S_ "[UX         ]"); (S_ "sambaPwdLastSet", S_ "1"); (S_ "sambaLogonTime", S_ "0"); (S_ "sambaLogoffTime", S_ "0");
       (S_ "sambaPwdCanChange", S_ "0"); (S_ "sambaPwdMustChange", S_ "0")]
      ++ match fixed with Some g => [(S_ "sambaPrimaryGroupSID", sid ++ S_ "-" ++ dec g)] | None => [] end
  end.
Definition class_of (f : filler) : str :=
  match f with FPosix => S_ "posixAccount" | FSamba => S_ "sambaAccount" | FSam _ _ => S_ "sambaSamAccount" end.

(** The assignment of an identifier; the edits that an event stands for by itself. *)
Definition own_edit (x : cedit) : Prop := exists user f n k v, id_of user f n = Some (k, v) /\ x = CSet (PStr k) (Listed [PStr v]).
Definition from_event (e : aevent) (x : cedit) : Prop :=
  match e with
  | AEdit y => x = y
  | AAdd f => exists k v, In (k, v) (defaults f) /\ x = CSet (PStr k) (Listed [PStr v])
  | ANumbers (Ok (u, g)) => x = CSet (PStr (S_ "uidNumber")) (Listed [PStr (dec u)]) \/ x = CSet (PStr (S_ "gidNumber")) (Listed [PStr (dec g)])
  | ANumbers (Err _) => False
  end.

Section AutofillSpec.
  Variable lower : str -> str.
  Variable io : str -> res Z.
  Variable iob : bytes -> res Z.

  (** The attribute stored under a text name. *)
  Definition at_ (c : cent) (k : str) : option aset := dict_get lower (PStr k) (e_attrs (y_entry c)).
  Definition shows (c : cent) (k v : str) : Prop := exists a, at_ c k = Some a /\ s_vals a = [PStr v].
  Definition has_number (c : cent) (k : str) (n : Z) : Prop := exists a v, at_ c k = Some a /\ s_vals a = [v] /\ num io iob v = Ok n.
  (** The identifiers of [f] are those of the numbers the entry has. *)
  Definition follows (f : filler) (c : cent) : Prop :=
    forall user n k v, has_number c (num_name user) n -> id_of user f n = Some (k, v) -> shows c k v.

  (** Ordinary edits, one after another. *)
  Definition edits (xs : list cedit) (c : cent) : cent := fold_left (fun c x => fst (c_edit lower x c)) xs c.

  (** A name that is not an identifier's or a number's, in any spelling. *)
  Definition not_id (k : pyval) : Prop := forall t, In t id_names -> lowv lower k <> lowv lower (PStr t).
  Definition other_name (k : pyval) : Prop := forall t, In t (id_names ++ num_names) -> lowv lower k <> lowv lower (PStr t).
  (** Edits: assignments and deletions, and any method on other attributes. A number is assigned under
      its own name; the identifiers are left to the fillers. *)
  Definition covered (x : cedit) : Prop :=
    match x with
    | CSet k _ => (exists user, k = PStr (num_name user)) \/ other_name k
    | CDel k => not_id k
    | COn k _ => forall l k', get_strings k = Ok l -> In k' l -> other_name k'
    end.
  (** Fillers for sambaSamAccount are of one domain. *)
  Definition of_domain (sid : str) (fixed : option Z) (f : filler) : Prop :=
    match f with FSam s x => s = sid /\ x = fixed | _ => True end.
  Definition covered_event (sid : str) (fixed : option Z) (e : aevent) : Prop :=
    match e with AEdit x => covered x | AAdd f => of_domain sid fixed f | ANumbers _ => True end.
  (** The RDN does not name an identifier, and numbers are stored under their own names. *)
  Definition sound (sid : str) (fixed : option Z) (a : aent) : Prop :=
    (forall r rest x, y_dn (f_cent a) = r :: rest -> In x r -> ~ In (a_type x) id_names) /\
    (forall b user, at_ (f_cent a) (num_name user) = Some b -> s_key b = PStr (num_name user)) /\
    Forall (of_domain sid fixed) (f_fillers a).
End AutofillSpec.
