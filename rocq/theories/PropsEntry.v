(** Theorems on attribute sets, entry comparison, diff, patch and modify (C21, C22, C24, C25), and on
    the conversion between text and bytes (C69). *)
From Verif Require Import Base BaseFacts Utf8Model Utf8Proofs DnModel DnSpec EntryModel EntrySpec EntryProofs DiffProofs.

(** C69: text that has a bytes form is recovered from it, bytes that have a text form are recovered
    from it, different texts have different bytes, and every code point outside the surrogates has a
    bytes form. *)
Theorem C69_text_and_bytes : forall (s : str) (b : bytes),
  (utf8_decode b = Ok s <-> utf8_encode s = Ok b) /\
  (forall s', utf8_encode s = Ok b -> utf8_encode s' = Ok b -> s = s') /\
  (Forall (fun c => 0 <= c < 0x110000 /\ ~ (0xD800 <= c <= 0xDFFF)) s <-> exists b', utf8_encode s = Ok b').
Proof.
  intros s b. split; [apply utf8_iff|]. split; [intros s'; apply encode_inj|].
  split; [apply utf8_encode_total|]. intros (b' & H). exact (utf8_encode_valid s b' H).
Qed.
Print Assumptions C69_text_and_bytes.
Example C69_case : utf8_encode [0x41; 0xE9; 0x20AC; 0x1F600] =
    Ok (map z2b [0x41; 0xC3; 0xA9; 0xE2; 0x82; 0xAC; 0xF0; 0x9F; 0x98; 0x80]) /\
  utf8_decode (map z2b [0xC0; 0x80]) = Err EUnicode.
Proof. split; [vm_compute; reflexivity|vm_compute; reflexivity]. Qed.

(** C21: for values that have both forms, any sequence of adds and removes (a refused remove leaves
    the set alone) gives exactly the octet strings it should, and the set never holds both the text
    and the bytes form of one value. *)
Theorem C21_attribute_values_partial : forall (xs : list edit) (l : list pyval),
  Forall (fun x => convertible (ed_value x)) xs -> one_form l ->
  one_form (run_edits xs l) /\ forall c, denotes (run_edits xs l) c <-> spec_edits xs (denotes l) c.
Proof. intros xs l. exact (run_edits_spec xs l). Qed.
Print Assumptions C21_attribute_values_partial.
(** Missing: values that are bytes but not UTF-8. They can be stored, but add and remove fail. *)
Theorem C21_binary_value_refuted : forall l : list pyval,
  aset_add (PBytes [z2b 0xFF]) l = Err EUnicode /\ aset_remove (PBytes [z2b 0xFF]) l = Err EUnicode.
Proof. intros l. split; reflexivity. Qed.
Print Assumptions C21_binary_value_refuted.
(** update() does not compare the forms, so the set can hold one value twice. *)
Theorem C21_update_refuted : exists vs : list pyval,
  Forall convertible vs /\ ~ one_form (set_update [] vs).
Proof.
  exists [PStr (S_ "a"); PBytes (B "a")]. split.
  - constructor; [eexists; vm_compute; reflexivity|]. constructor; [eexists; vm_compute; reflexivity|constructor].
  - intros (_ & _ & H). specialize (H (PStr (S_ "a")) (PBytes (B "a"))).
    assert (X : PStr (S_ "a") = PBytes (B "a")); [|discriminate]. apply H.
    + vm_compute. auto.
    + vm_compute. auto.
    + exists (B "a"). split; [vm_compute; reflexivity|vm_compute; reflexivity].
Qed.
Print Assumptions C21_update_refuted.
Example C21_case : run_edits [EdAdd (PStr (S_ "a")); EdAdd (PBytes (B "a")); EdAdd (PBytes (B "b")); EdRemove (PBytes (B "a"))] []
  = [PBytes (B "b")].
Proof. vm_compute. reflexivity. Qed.

(** Equality of entries is equality of DNs, attribute names and value sets. *)
Theorem C22_entry_equality : forall (lower : str -> str) (kt vt : bool) (a b : entry),
  entry_ok lower kt vt a -> entry_ok lower kt vt b ->
  exists r, entry_eq lower a b = Ok r /\
    (r = true <-> dn_eqb lower (e_dn a) (e_dn b) = true /\ (forall k, In k (keys_of a) <-> In k (keys_of b)) /\
                  forall k v, holds lower a k v <-> holds lower b k v).
Proof. exact entry_eq_spec. Qed.
Print Assumptions C22_entry_equality.

(** C22: for entries with one type of key and one type of value, all convertible, and no attribute
    spelled differently in the two: diff gives nothing when they are equal; otherwise the
    modifications can be applied, afterwards every attribute has exactly the values it has in the
    target, every attribute of the target is there under the same spelling, and if no attribute
    was dropped the entries are equal. *)
Theorem C22_diff_patch_partial : forall (lower : str -> str) (kt vt : bool) (self other : entry),
  entry_ok lower kt vt self -> entry_ok lower kt vt other ->
  (forall k k', In k (keys_of self) -> In k' (keys_of other) -> lowv lower k = lowv lower k' -> k = k') ->
  dn_eqb lower (e_dn self) (e_dn other) = true ->
  (diff lower self other = Ok None /\ entry_eq lower self other = Ok true) \/
  (exists ms e', diff lower self other = Ok (Some ms) /\ entry_eq lower self other = Ok false /\
     patch_all lower ms self = (e', Ok tt) /\ entry_ok lower kt vt e' /\ e_dn e' = e_dn self /\
     (forall k v, holds lower e' k v <-> holds lower other k v) /\
     (forall k, In k (keys_of other) -> In k (keys_of e')) /\
     ((forall k, In k (keys_of self) -> In k (keys_of other)) -> entry_eq lower e' other = Ok true)).
Proof.
  intros lower kt vt self other Os Oo Sp D.
  destruct (diff_patch lower kt vt self other Os Oo Sp D) as [(e & H1 & H2 & _)|H]; [left; auto|right; exact H].
Qed.
Print Assumptions C22_diff_patch_partial.

Definition c22_dn : dn := [[mkAtv (S_ "cn") (S_ "x")]].
Definition c22_mk (l : list (pyval * list pyval)) : entry := new_entry ascii_lower c22_dn l.
Definition bv (s : string) : pyval := PBytes (B s).
Definition sv (s : string) : pyval := PStr (S_ s).
(** Not in general: when an attribute is dropped, it is left there without values, so the patched
    entry differs from the target. *)
Theorem C22_removed_attribute_refuted : exists (self other : entry) ms e',
  entry_ok ascii_lower false false self /\ entry_ok ascii_lower false false other /\
  diff ascii_lower self other = Ok (Some ms) /\ patch_all ascii_lower ms self = (e', Ok tt) /\
  entry_eq ascii_lower e' other = Ok false.
Proof.
  exists (c22_mk [(bv "cn", [bv "x"]); (bv "mail", [bv "m"])]), (c22_mk [(bv "cn", [bv "x"])]).
  eexists. eexists. split; [|split; [|split; [vm_compute; reflexivity|split; [vm_compute; reflexivity|vm_compute; reflexivity]]]].
  - apply entry_okb_ok. vm_compute. reflexivity.
  - apply entry_okb_ok. vm_compute. reflexivity.
Qed.
Print Assumptions C22_removed_attribute_refuted.
(** When an attribute is spelled "cn" in one entry and "CN" in the other, values common to both are lost. *)
Theorem C22_spelling_refuted : exists (self other : entry) ms e',
  diff ascii_lower self other = Ok (Some ms) /\ patch_all ascii_lower ms self = (e', Ok tt) /\
  holds ascii_lower self (bv "cn") (bv "x") /\ holds ascii_lower other (bv "cn") (bv "x") /\
  get_values ascii_lower (bv "cn") e' = Ok [bv "y"].
Proof.
  exists (c22_mk [(bv "cn", [bv "x"])]), (c22_mk [(bv "CN", [bv "x"; bv "y"])]).
  eexists. eexists. split; [vm_compute; reflexivity|]. split; [vm_compute; reflexivity|].
  split; [|split; [|vm_compute; reflexivity]]; (eexists; split; [now left|]; split; [vm_compute; reflexivity|vm_compute; auto]).
Qed.
Print Assumptions C22_spelling_refuted.
(** When a binary value that is not UTF-8 is to be removed, patch raises. *)
Theorem C22_binary_refuted : exists (self other : entry) ms,
  diff ascii_lower self other = Ok (Some ms) /\ patch_all ascii_lower ms self = (self, Err EUnicode).
Proof.
  exists (c22_mk [(bv "cn", [bv "x"; PBytes [z2b 0xFF]])]), (c22_mk [(bv "cn", [bv "x"])]).
  eexists. split; [vm_compute; reflexivity|vm_compute; reflexivity].
Qed.
Print Assumptions C22_binary_refuted.
Example C22_case :
  let self := c22_mk [(bv "cn", [bv "x"; bv "z"]); (bv "sn", [bv "s"])] in
  let other := c22_mk [(bv "cn", [bv "x"; bv "y"]); (bv "sn", [bv "s"]); (bv "mail", [bv "m"])] in
  diff ascii_lower self other = Ok (Some [mkDelta MAdd (bv "mail") [bv "m"]; mkDelta MAdd (bv "cn") [bv "y"];
                                          mkDelta MDelete (bv "cn") [bv "z"]]) /\
  entry_ok ascii_lower false false self.
Proof.
  split; [vm_compute; reflexivity|]. apply entry_okb_ok. vm_compute. reflexivity.
Qed.

(** C24: on an entry and modifications with one type of key and one type of value, all convertible,
    a modification list has the value-set effect that [modifies_all] defines (RFC 4511 section 4.6
    except that an attribute may be left without values and that adding a value twice is
    allowed), and it is refused exactly when that definition refuses it. *)
Theorem C24_modify_partial : forall (lower : str -> str) (kt vt : bool) (ms : list delta) (e : entry) (A : amap),
  entry_ok lower kt vt e -> Forall (delta_ok kt vt) ms -> represents lower e A ->
  exists e' r, patch_all lower ms e = (e', r) /\ entry_ok lower kt vt e' /\ e_dn e' = e_dn e /\
    ((r = Ok tt /\ exists A', modifies_all lower ms A (Some A') /\ represents lower e' A') \/
     (r = Err EKey /\ modifies_all lower ms A None)).
Proof. intros lower kt vt ms e A. exact (patch_all_spec lower kt vt ms e A). Qed.
Print Assumptions C24_modify_partial.
(** Every entry represents some map, so the theorem above says something about all of them. *)
Theorem C24_represents : forall (lower : str -> str) (e : entry), exists A, represents lower e A.
Proof. exact represents_some. Qed.
Print Assumptions C24_represents.
(** Attributes that are not named keep their values, also when the list is refused. *)
Theorem C24_other_attributes : forall (lower : str -> str) (kt vt : bool) (ms : list delta) (e e' : entry) r (k v : pyval),
  entry_ok lower kt vt e -> Forall (delta_ok kt vt) ms -> patch_all lower ms e = (e', r) ->
  Forall (fun m => lowv lower (d_key m) <> lowv lower k) ms ->
  (has lower e' k <-> has lower e k) /\ (holds lower e' k v <-> holds lower e k v).
Proof. exact patch_all_other. Qed.
Print Assumptions C24_other_attributes.
(** Against the RFC: deleting all values leaves an attribute without values, *)
Theorem C24_empty_attribute_refuted : exists (e e' : entry),
  patch_all ascii_lower [mkDelta MDelete (bv "cn") [bv "x"]] e = (e', Ok tt) /\
  has_key ascii_lower (bv "cn") e' = Ok true /\ get_values ascii_lower (bv "cn") e' = Ok [].
Proof. exists (c22_mk [(bv "cn", [bv "x"])]). eexists. split; [vm_compute; reflexivity|]. split; [vm_compute; reflexivity|vm_compute; reflexivity]. Qed.
Print Assumptions C24_empty_attribute_refuted.
(** adding a value in the other form stores it twice, *)
Theorem C24_mixed_forms_refuted : exists (e e' : entry),
  patch_all ascii_lower [mkDelta MAdd (bv "cn") [bv "x"]] e = (e', Ok tt) /\
  get_values ascii_lower (bv "cn") e' = Ok [sv "x"; bv "x"].
Proof. exists (c22_mk [(sv "cn", [sv "x"])]). eexists. split; [vm_compute; reflexivity|vm_compute; reflexivity]. Qed.
Print Assumptions C24_mixed_forms_refuted.
(** and deleting or replacing a whole attribute named in the other form does not find it: the
    delete is refused, and the replacement leaves the old values beside the new ones. *)
Theorem C24_mixed_keys_refuted : exists (e e' : entry),
  patch_all ascii_lower [mkDelta MDelete (bv "cn") []] e = (e, Err EKey) /\ has_key ascii_lower (bv "cn") e = Ok true /\
  patch_all ascii_lower [mkDelta MReplace (bv "cn") [bv "y"]] e = (e', Ok tt) /\
  get_values ascii_lower (sv "cn") e' = Ok [sv "x"].
Proof.
  exists (c22_mk [(sv "cn", [sv "x"])]). eexists. split; [vm_compute; reflexivity|]. split; [vm_compute; reflexivity|].
  split; [vm_compute; reflexivity|vm_compute; reflexivity].
Qed.
Print Assumptions C24_mixed_keys_refuted.
Example C24_case :
  patch_all ascii_lower [mkDelta MAdd (bv "CN") [bv "y"]; mkDelta MDelete (bv "cn") [bv "x"]; mkDelta MReplace (bv "sn") [bv "t"]]
    (c22_mk [(bv "cn", [bv "x"]); (bv "sn", [bv "s"])])
  = (c22_mk [(bv "cn", [bv "y"]); (bv "sn", [bv "t"])], Ok tt).
Proof. vm_compute. reflexivity. Qed.

(** C25, what holds: a refused modification list stops inside a Delete. What came before it is
    applied in full, of that Delete a part [done] of the values before the missing one, and nothing
    else. So a list whose Deletes all succeed is never refused. *)
Theorem C25_failed_modify_partial : forall (lower : str -> str) (kt vt : bool) (ms : list delta) (e e' : entry) x,
  entry_ok lower kt vt e -> Forall (delta_ok kt vt) ms -> patch_all lower ms e = (e', Err x) ->
  exists pre m post e1 done, ms = pre ++ m :: post /\ patch_all lower pre e = (e1, Ok tt) /\
    d_kind m = MDelete /\ (exists v rest, d_vals m = done ++ v :: rest \/ d_vals m = [] /\ done = []) /\
    (forall k, has lower e' k <-> has lower e1 k) /\
    (forall k v, holds lower e' k v <-> holds lower e1 k v /\ ~ (lowv lower k = lowv lower (d_key m) /\ In v done)).
Proof. intros lower kt vt ms e e' x. exact (patch_all_stop lower kt vt ms e e' x). Qed.
Print Assumptions C25_failed_modify_partial.
(** It is not atomic: what was done before the failure stays. *)
Theorem C25_failed_modify_refuted : exists (e e' : entry) ms,
  patch_all ascii_lower ms e = (e', Err EKey) /\ entry_eq ascii_lower e e' = Ok false.
Proof.
  exists (c22_mk [(bv "cn", [bv "x"])]). eexists. exists [mkDelta MAdd (bv "sn") [bv "s"]; mkDelta MDelete (bv "mail") [bv "m"]].
  split; [vm_compute; reflexivity|vm_compute; reflexivity].
Qed.
Print Assumptions C25_failed_modify_refuted.
