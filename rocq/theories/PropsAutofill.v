(** C95: entries that fill themselves in. *)
From Verif Require Import Base BaseFacts Utf8Model DnModel DnSpec EntryModel EntrySpec LdapModel LdapSpec DeltaModel UtilModel LdifModel ServerModel SyntaxModel SyntaxSpec
  AutofillModel AutofillSpec AutofillProofs.

(** Whatever assignments, deletions, additions of fillers and answers to their searches happen, raising
    or not, the identifiers of a filler that once agreed with the numbers go on agreeing with them
    ([follows]); and the entry, with its journal, is the one that ordinary edits would have given: those
    that were made, the defaults, and assignments of identifiers. *)
Theorem C95_kept_partial : forall lower oc_first io iob, (forall s, ascii s -> lower s = ascii_lower s) ->
  forall sid fixed a l, sound lower sid fixed a -> Forall (covered_event lower sid fixed) l ->
  let a' := a_run lower oc_first io iob l a in
  sound lower sid fixed a' /\
  (forall f, In f (f_fillers a) -> In f (f_fillers a') /\ (follows lower io iob f (f_cent a) -> follows lower io iob f (f_cent a'))) /\
  exists xs, Forall (fun x => own_edit x \/ exists e, In e l /\ from_event e x) xs /\ f_cent a' = edits lower xs (f_cent a).
Proof. intros lower oc_first io iob L sid fixed a l. exact (run_spec lower L oc_first io iob sid fixed l a). Qed.
Print Assumptions C95_kept_partial.

(** Assigning one number: it succeeds, the identifiers of all fillers are those of the number, the
    journal says both and nothing else, and all else stays. *)
Theorem C95_assigned_partial : forall lower oc_first io iob, (forall s, ascii s -> lower s = ascii_lower s) ->
  forall sid fixed a user v n r rest, sound lower sid fixed a -> y_deleted (f_cent a) = false -> y_dn (f_cent a) = r :: rest ->
  (forall x, In x r -> a_type x <> num_name user) -> num io iob v = Ok n ->
  exists c', a_step lower oc_first io iob (AEdit (CSet (PStr (num_name user)) (Listed [v]))) a = (mkAent c' (f_fillers a), Ok tt) /\
    y_journal c' = y_journal (f_cent a) ++ new_delta MReplace (PStr (num_name user)) [v]
      :: flat_map (fun f => match id_of user f n with Some (k, t) => [new_delta MReplace (PStr k) [PStr t]] | None => [] end) (f_fillers a) /\
    (exists b, at_ lower c' (num_name user) = Some b /\ s_vals b = [v]) /\
    (forall f k t, In f (f_fillers a) -> id_of user f n = Some (k, t) -> shows lower c' k t) /\
    y_dn c' = r :: rest /\ y_deleted c' = false /\
    forall k, lowv lower k <> lowv lower (PStr (num_name user)) -> (forall f m t w, id_of user f m = Some (t, w) -> lowv lower k <> lowv lower (PStr t)) ->
      dict_get lower k (e_attrs (y_entry c')) = dict_get lower k (e_attrs (y_entry (f_cent a))).
Proof. intros lower oc_first io iob L. exact (assign_spec lower L oc_first io iob). Qed.
Print Assumptions C95_assigned_partial.

(** A filler that starts well: the entry has its object class and had none of the defaults; it has them
    now, and nothing else but identifiers has changed. One for sambaSamAccount also fills in the
    identifiers of the numbers that are there. *)
Theorem C95_started : forall lower oc_first io iob, (forall s, ascii s -> lower s = ascii_lower s) ->
  forall sid fixed fs f c c', of_domain sid fixed f -> (forall r rest x, y_dn c = r :: rest -> In x r -> ~ In (a_type x) id_names) ->
  start lower oc_first io iob fs f c = (c', Ok tt) ->
  (exists vs, get_values lower (PStr (S_ "objectClass")) (y_entry c) = Ok vs /\ In (PStr (class_of f)) vs) /\
  (forall k v, In (k, v) (defaults f) -> at_ lower c k = None /\ shows lower c' k v) /\
  (forall k, (forall k' v, In (k', v) (defaults f) -> lowv lower k <> lowv lower (PStr k')) -> not_id lower k ->
     dict_get lower k (e_attrs (y_entry c')) = dict_get lower k (e_attrs (y_entry c))) /\
  ((forall b user, at_ lower c (num_name user) = Some b -> s_key b = PStr (num_name user)) -> match f with FSam _ _ => follows lower io iob f c' | _ => True end).
Proof. intros lower oc_first io iob L sid fixed fs f c c' D F E. exact (proj2 (start_spec lower L oc_first io iob sid fixed fs f c c' (Ok tt) D F E) eq_refl). Qed.
Print Assumptions C95_started.

(** An account that gets its numbers from the directory: it has them, and the identifiers of all fillers follow. *)
Theorem C95_numbers : forall lower oc_first io iob, (forall s, ascii s -> lower s = ascii_lower s) ->
  forall sid fixed a u g r rest, sound lower sid fixed a -> y_deleted (f_cent a) = false -> y_dn (f_cent a) = r :: rest ->
  (forall x, In x r -> ~ In (a_type x) num_names) ->
  exists c', a_step lower oc_first io iob (ANumbers (Ok (u, g))) a = (mkAent c' (f_fillers a ++ [FPosix]), Ok tt) /\
    shows lower c' (S_ "uidNumber") (dec u) /\ shows lower c' (S_ "gidNumber") (dec g) /\ forall f, In f (f_fillers a) -> follows lower io iob f c'.
Proof. intros lower oc_first io iob L. exact (numbers_spec lower L oc_first io iob). Qed.
Print Assumptions C95_numbers.

(** A new account: a filler for Samba, one for posix, then its numbers are found, then the user gets another one. *)
Definition af_io (s : str) : res Z := Err EValue.
Definition af_iob (b : bytes) : res Z := Err EValue.
Definition af_dn : dn := [[mkAtv (S_ "uid") (S_ "x")]; [mkAtv (S_ "dc") (S_ "com")]].
Definition af_items : list (pyval * list pyval) :=
  [(PStr (S_ "objectClass"), [PStr (S_ "posixAccount"); PStr (S_ "sambaSamAccount"); PStr (S_ "sambaAccount")]); (PStr (S_ "uid"), [PStr (S_ "x")])].
Definition af_0 : aent := mkAent (new_cent ascii_lower af_dn af_items) [].
Definition af_sam : filler := FSam (S_ "S-1-5") None.
Definition af_events : list aevent :=
  [AAdd FSamba; AAdd af_sam; AAdd FPosix; ANumbers (Ok (1000, 1001)); AEdit (CSet (PStr (S_ "uidNumber")) (Listed [PStr (S_ "7")]));
   AEdit (COn (PStr (S_ "uid")) (SAdd (PStr (S_ "y")))); AEdit (CDel (PStr (S_ "gidNumber")))].
Definition af_run (l : list aevent) (a : aent) : aent := a_run ascii_lower true af_io af_iob l a.
Definition af_values (k : str) (a : aent) : res (list pyval) := get_values ascii_lower (PStr k) (y_entry (f_cent a)).
Lemma af_sound : sound ascii_lower (S_ "S-1-5") None af_0.
Proof.
  split; [|split; [|constructor]].
  - intros r rest x E I. injection E as <- <-. destruct I as [<-|[]]. vm_compute. intros X. repeat destruct X as [X|X]; try discriminate; contradiction.
  - intros b []; vm_compute; discriminate.
Qed.
Lemma af_covered : Forall (covered_event ascii_lower (S_ "S-1-5") None) af_events.
Proof.
  repeat (apply Forall_cons); try exact I; try (split; reflexivity).
  - left. now exists true.
  - intros l k E I t It. vm_compute in E. injection E as <-. destruct I as [<-|[<-|[]]]; repeat destruct It as [<-|It]; try contradiction; vm_compute; discriminate.
  - intros t It. repeat destruct It as [<-|It]; try contradiction; vm_compute; discriminate.
  - constructor.
Qed.
Example C95_case : let a := af_run af_events af_0 in
  sound ascii_lower (S_ "S-1-5") None af_0 /\ Forall (covered_event ascii_lower (S_ "S-1-5") None) af_events /\
  f_fillers a = [FSamba; af_sam; FPosix] /\
  af_values (S_ "rid") a = Ok [PStr (S_ "1014")] /\ af_values (S_ "sambaSID") a = Ok [PStr (S_ "S-1-5-1014")] /\
  af_values (S_ "sambaPrimaryGroupSID") a = Ok [PStr (S_ "S-1-5-3003")] /\ af_values (S_ "loginShell") a = Ok [PStr (S_ "/bin/sh")] /\
  has_number ascii_lower af_io af_iob (f_cent a) (S_ "uidNumber") 7.
Proof.
  split; [exact af_sound|]. split; [exact af_covered|]. split; [vm_compute; reflexivity|]. split; [vm_compute; reflexivity|]. split; [vm_compute; reflexivity|].
  split; [vm_compute; reflexivity|]. split; [vm_compute; reflexivity|]. do 2 eexists. split; [vm_compute; reflexivity|]. split; vm_compute; reflexivity.
Qed.

(** The hypotheses of the other theorems: a start with a number there, a single assignment, numbers found. *)
Example C95_start_case : (exists c', start ascii_lower true af_io af_iob [] af_sam (f_cent (af_run [AEdit (CSet (PStr (S_ "uidNumber")) (Listed [PStr (S_ "7")]))] af_0)) = (c', Ok tt) /\
    get_values ascii_lower (PStr (S_ "sambaSID")) (y_entry c') = Ok [PStr (S_ "S-1-5-1014")] /\ get_values ascii_lower (PStr (S_ "sambaPwdLastSet")) (y_entry c') = Ok [PStr (S_ "1")]) /\
  y_deleted (f_cent af_0) = false /\ (exists r rest, y_dn (f_cent af_0) = r :: rest /\ forall x, In x r -> ~ In (a_type x) num_names) /\ num af_io af_iob (PStr (S_ "-7")) = Ok (-7).
Proof.
  split; [eexists; split; [vm_compute; reflexivity|]; split; vm_compute; reflexivity|]. split; [reflexivity|]. split; [|vm_compute; reflexivity].
  do 2 eexists. split; [reflexivity|]. intros x [<-|[]] I. vm_compute in I. repeat destruct I as [I|I]; try discriminate; contradiction.
Qed.

(** Changing the number through its set: the fillers are told before it changes. Removing the number
    and adding another one raises an AssertionError; the entry has no number then, but the commit
    sends the new one, with the identifier of the old one. *)
Definition af_ready : aent := af_run [AAdd FSamba; AAdd af_sam; AEdit (CSet (PStr (S_ "uidNumber")) (Listed [PStr (S_ "1000")]))] af_0.
Theorem C95_methods_refuted : exists a1 a2,
  a_step ascii_lower true af_io af_iob (AEdit (COn (PStr (S_ "uidNumber")) (SRemove (PStr (S_ "1000"))))) af_ready = (a1, Ok tt) /\
  a_step ascii_lower true af_io af_iob (AEdit (COn (PStr (S_ "uidNumber")) (SAdd (PStr (S_ "7"))))) a1 = (a2, Err EAssert) /\
  af_values (S_ "uidNumber") a2 = Ok [] /\ af_values (S_ "sambaSID") a2 = Ok [PStr (S_ "S-1-5-3000")] /\
  last (y_journal (f_cent a2)) (new_delta MReplace (PStr []) []) = new_delta MAdd (PStr (S_ "uidNumber")) [PStr (S_ "7")].
Proof. do 2 eexists. split; [vm_compute; reflexivity|]. split; [vm_compute; reflexivity|]. split; [vm_compute; reflexivity|]. split; vm_compute; reflexivity. Qed.
Print Assumptions C95_methods_refuted.

(** A number assigned under another spelling of its name: the identifiers stay those of the old one. *)
Theorem C95_spelling_refuted : exists a1,
  a_step ascii_lower true af_io af_iob (AEdit (CSet (PStr (S_ "uidnumber")) (Listed [PStr (S_ "7")]))) af_ready = (a1, Ok tt) /\
  af_values (S_ "uidNumber") a1 = Ok [PStr (S_ "7")] /\ af_values (S_ "sambaSID") a1 = Ok [PStr (S_ "S-1-5-3000")] /\
  follows ascii_lower af_io af_iob af_sam (f_cent af_ready) /\ ~ follows ascii_lower af_io af_iob af_sam (f_cent a1).
Proof.
  eexists. split; [vm_compute; reflexivity|]. split; [vm_compute; reflexivity|]. split; [vm_compute; reflexivity|]. split.
  - intros [] n k v (a & w & G & V & E) Id.
    + vm_compute in G. injection G as <-. injection V as <-. vm_compute in E. injection E as <-. vm_compute in Id. injection Id as <- <-.
      eexists. split; [vm_compute; reflexivity|reflexivity].
    + vm_compute in G. discriminate.
  - intros H. destruct (H true 7 (S_ "sambaSID") (S_ "S-1-5-1014")) as (a & A1 & A2).
    + do 2 eexists. split; [vm_compute; reflexivity|]. split; vm_compute; reflexivity.
    + vm_compute. reflexivity.
    + vm_compute in A1. injection A1 as <-. vm_compute in A2. discriminate.
Qed.
Print Assumptions C95_spelling_refuted.

(** An entry as the server sends it, in bytes, is never of the right object class. *)
Theorem C95_from_server_refuted : exists c, c = new_cent ascii_lower af_dn [(PBytes (B "objectClass"), [PBytes (B "sambaSamAccount")]); (PBytes (B "uid"), [PBytes (B "x")])] /\
  start ascii_lower true af_io af_iob [] af_sam c = (c, Err EMissingClass).
Proof. eexists. split; [reflexivity|]. vm_compute. reflexivity. Qed.
Print Assumptions C95_from_server_refuted.

(** The filler for sambaAccount does not look at the numbers that are there. *)
Theorem C95_samba_late_refuted : exists a1,
  a_step ascii_lower true af_io af_iob (AAdd FSamba) (af_run [AEdit (CSet (PStr (S_ "uidNumber")) (Listed [PStr (S_ "7")]))] af_0) = (a1, Ok tt) /\
  af_values (S_ "uidNumber") a1 = Ok [PStr (S_ "7")] /\ af_values (S_ "rid") a1 = Ok [].
Proof. eexists. split; [vm_compute; reflexivity|]. split; vm_compute; reflexivity. Qed.
Print Assumptions C95_samba_late_refuted.

(** A filler that cannot start has changed the entry; it cannot be started again even when what
    hindered it is gone. *)
Theorem C95_half_refuted : exists a1 a2,
  a_step ascii_lower true af_io af_iob (AAdd FSamba) (af_run [AEdit (CSet (PStr (S_ "logonTime")) (Listed [PStr (S_ "7")]))] af_0) = (a1, Err EAssert) /\
  f_fillers a1 = [] /\ af_values (S_ "acctFlags") a1 = Ok [PStr (S_ "[UX         ]")] /\
  a_step ascii_lower true af_io af_iob (AEdit (CDel (PStr (S_ "logonTime")))) a1 = (a2, Ok tt) /\
  a_step ascii_lower true af_io af_iob (AAdd FSamba) a2 = (a2, Err EAssert).
Proof. do 2 eexists. split; [vm_compute; reflexivity|]. split; [reflexivity|]. split; [vm_compute; reflexivity|]. split; vm_compute; reflexivity. Qed.
Print Assumptions C95_half_refuted.
