(** C27, C28: matching entries against filters. *)
From Verif Require Import Base BaseFacts Utf8Model DnModel DnSpec EntryModel EntrySpec LdapSpec MatchModel MatchSpec MatchProofs PropsEntry.

(** C27. Filters built in any nesting from and, or, not, presence and equality, with names and
    values that are UTF-8: matching never fails and gives the boolean reading. *)
Theorem C27_boolean_filters_partial : forall (lower : str -> str) (kt : bool) (e : entry) (f : filter),
  keys_ok lower kt e -> plain False f ->
  exists r, matches lower e f = Ok r /\ (r = true <-> sat lower e f).
Proof. intros lower kt e f K P. apply (matches_sat lower kt e f False K); [intros []|exact P]. Qed.
Print Assumptions C27_boolean_filters_partial.
(** The same with orderings inside, when the values of the entry are bytes. *)
Theorem C27_boolean_filters_ordering_partial : forall (lower : str -> str) (kt : bool) (e : entry) (f : filter),
  keys_ok lower kt e -> bytes_values e -> plain True f ->
  exists r, matches lower e f = Ok r /\ (r = true <-> sat lower e f).
Proof. intros lower kt e f K V P. apply (matches_sat lower kt e f True K); auto. Qed.
Print Assumptions C27_boolean_filters_ordering_partial.
(** Not for all filters: an equality with octets that are not UTF-8 raises instead of being false,
    although the entry has exactly these octets as value. *)
Theorem C27_not_utf8_refuted : exists (e : entry) (f : filter),
  sat ascii_lower e f /\ matches ascii_lower e f = Err EUnicode.
Proof.
  exists (c22_mk [(bv "jpegPhoto", [PBytes [xff; xd8]])]), (FEq (B "jpegPhoto") [xff; xd8]). split; [|vm_compute; reflexivity].
  cbn [sat]. eexists _, (PBytes [xff; xd8]). split; [left; reflexivity|]. split; [vm_compute; reflexivity|]. split; [left; reflexivity|vm_compute; reflexivity].
Qed.
Print Assumptions C27_not_utf8_refuted.
(** An ordering against an entry with text values raises too. *)
Theorem C27_ordering_text_refuted : exists (e : entry) (f : filter),
  keys_ok ascii_lower true e /\ plain True f /\ matches ascii_lower e f = Err EType.
Proof.
  exists (c22_mk [(sv "uid", [sv "5"])]), (FGe (B "uid") (B "4")). split.
  - split; [repeat constructor; eexists; vm_compute; reflexivity|repeat constructor; cbn; tauto].
  - split; [|vm_compute; reflexivity]. split; [exact I|]. eexists. vm_compute. reflexivity.
Qed.
Print Assumptions C27_ordering_text_refuted.
Definition c27_e : entry := c22_mk [(bv "CN", [bv "Foo"; bv "bar"]); (bv "objectClass", [bv "top"])].
Definition c27_f : filter :=
  FAnd [FPresent (B "objectclass"); FOr [FEq (B "cn") (B "zip"); FEq (B "cn") (B "FOO")]; FNot (FEq (B "sn") (B "x")); FGe (B "cn") (B "Fo")].
Example C27_case : keys_ok ascii_lower false c27_e /\ bytes_values c27_e /\ plain True c27_f /\
  matches ascii_lower c27_e c27_f = Ok true /\ matches ascii_lower c27_e (FNot c27_f) = Ok false.
Proof.
  split.
  { split; [repeat constructor; eexists; vm_compute; reflexivity|].
    vm_compute. repeat constructor; cbn; intuition congruence. }
  split; [vm_compute; repeat constructor; eexists; reflexivity|].
  split; [|split; [vm_compute; reflexivity|vm_compute; reflexivity]].
  cbn. repeat split; try exact I; eexists; vm_compute; reflexivity.
Qed.

(** C28. Exact for filters without middle parts, and with one middle part when the code cuts the
    final part off at its length. *)
Theorem C28_substrings_partial : forall (lower : str -> str) (kt : bool) (e : entry) (a : bytes)
    (i : option bytes) (ms : list bytes) (f : option bytes),
  keys_ok lower kt e -> bytes_values e -> utf8 a ->
  (ms = [] \/ (exists m, ms = [m]) /\ final_cut_exact i ms f) ->
  exists r, matches lower e (FSubstr a (parts_of i ms f)) = Ok r /\ (r = true <-> valued lower e a (has_shape i ms f)).
Proof. exact substr_exact. Qed.
Print Assumptions C28_substrings_partial.
(** With any number of middle parts, every entry with a value of the shape is matched, if there is
    no final part or the code does not cut off more than it. *)
Theorem C28_substrings_complete_partial : forall (lower : str -> str) (kt : bool) (e : entry) (a : bytes)
    (i : option bytes) (ms : list bytes) (f : option bytes),
  keys_ok lower kt e -> bytes_values e -> utf8 a -> (ms = [] \/ final_cut_within i ms f) ->
  valued lower e a (has_shape i ms f) -> matches lower e (FSubstr a (parts_of i ms f)) = Ok true.
Proof. exact substr_complete. Qed.
Print Assumptions C28_substrings_complete_partial.
(** Without a final part, what is matched beyond the shape is exactly overlapping middle parts. *)
Theorem C28_substrings_overlapping : forall (lower : str -> str) (kt : bool) (e : entry) (a : bytes)
    (i : option bytes) (ms : list bytes),
  keys_ok lower kt e -> bytes_values e -> utf8 a ->
  exists r, matches lower e (FSubstr a (parts_of i ms None)) = Ok r /\
    (r = true <-> valued lower e a (fun v => exists b p q, v = PBytes b /\ lower_bytes b = p ++ q /\ p = lower_bytes (oget i) /\
                                      in_order_overlapping (map lower_bytes ms) q)).
Proof. exact substr_overlapping. Qed.
Print Assumptions C28_substrings_overlapping.
Definition c28_e (v : string) : entry := c22_mk [(bv "cn", [bv v])].
Lemma c28_values v (P : pyval -> Prop) : valued ascii_lower (c28_e v) (B "cn") P <-> P (bv v).
Proof.
  split.
  - intros (s & x & I & N & V & H). cbn in I. destruct I as [<-|[]]. cbn in V. destruct V as [<-|[]]. exact H.
  - intros H. eexists _, (bv v). split; [left; reflexivity|]. split; [reflexivity|]. split; [left; reflexivity|exact H].
Qed.
(** Two middle parts "a" match the value "a": the parts may overlap. *)
Theorem C28_overlap_refuted : exists (e : entry) (ms : list bytes),
  matches ascii_lower e (FSubstr (B "cn") (parts_of None ms None)) = Ok true /\
  ~ valued ascii_lower e (B "cn") (has_shape None ms None).
Proof.
  exists (c28_e "a"), [B "a"; B "a"]. split; [vm_compute; reflexivity|]. rewrite c28_values.
  intros (mid & E & p & q & Q & p' & q' & Q' & _). cbn in E, Q, Q'. rewrite app_nil_r in E.
  apply (f_equal (@length byte)) in E, Q, Q'. cbn in E. repeat (rewrite !app_length in Q || rewrite !app_length in Q' || cbn in Q || cbn in Q'). lia.
Qed.
Print Assumptions C28_overlap_refuted.
(** The final part is cut off by the length of the first part: "abcd" is not matched by "*abc*d", *)
Theorem C28_final_missed_refuted : exists (e : entry) (ms : list bytes) (f : bytes),
  valued ascii_lower e (B "cn") (has_shape None ms (Some f)) /\
  matches ascii_lower e (FSubstr (B "cn") (parts_of None ms (Some f))) = Ok false.
Proof.
  exists (c28_e "abcd"), [B "abc"], (B "d"). split; [|vm_compute; reflexivity]. rewrite c28_values.
  exists (B "abc"). split; [vm_compute; reflexivity|]. exists [], []. split; [reflexivity|exact I].
Qed.
Print Assumptions C28_final_missed_refuted.
(** and "ab" is matched by "*a*ab", where the middle part is found inside the final part. *)
Theorem C28_final_overlap_refuted : exists (e : entry) (ms : list bytes) (f : bytes),
  matches ascii_lower e (FSubstr (B "cn") (parts_of None ms (Some f))) = Ok true /\
  ~ valued ascii_lower e (B "cn") (has_shape None ms (Some f)).
Proof.
  exists (c28_e "ab"), [B "a"], (B "ab"). split; [vm_compute; reflexivity|]. rewrite c28_values.
  intros (mid & E & p & q & Q & _). cbn in E, Q. subst mid.
  apply (f_equal (@length byte)) in E. rewrite !app_length in E. cbn in E. lia.
Qed.
Print Assumptions C28_final_overlap_refuted.
Example C28_case : keys_ok ascii_lower false (c28_e "Foobar") /\ bytes_values (c28_e "Foobar") /\ utf8 (B "cn") /\
  final_cut_exact (Some (B "f")) [B "OB"] (Some (B "r")) /\
  matches ascii_lower (c28_e "Foobar") (FSubstr (B "cn") (parts_of (Some (B "f")) [B "OB"] (Some (B "r")))) = Ok true /\
  matches ascii_lower (c28_e "Foobar") (FSubstr (B "cn") (parts_of (Some (B "f")) [B "x"] (Some (B "r")))) = Ok false.
Proof.
  split; [split; [repeat constructor; eexists; vm_compute; reflexivity|repeat constructor; cbn; tauto]|].
  split; [repeat constructor; eexists; reflexivity|].
  split; [eexists; vm_compute; reflexivity|].
  split; [vm_compute; split; reflexivity|]. split; [vm_compute; reflexivity|vm_compute; reflexivity].
Qed.
