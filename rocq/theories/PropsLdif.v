(** LDIF text: round trip of entries and change records, chunks, folding, truncation (C47-C51). *)
From Verif Require Import Base BaseFacts Utf8Model DnModel DnSpec EntryModel EntrySpec DeltaSpec LdifModel LdifSpec LdifProofs LdifRead LdifRound.

(** Instances for the examples: str.lower() on ASCII, int() of other characters *)
Definition lx_io : Z -> Z -> res Z := fun _ _ => Err EValue.
Definition lx_vio : str -> res Z := fun _ => Err EValue.
Lemma lx_oc : lower_oc ascii_lower. Proof. intros s. reflexivity. Qed.
Lemma short_small t : zlen t <=? 16384 = true -> short_lines t.
Proof.
  intros H a l b -> _. rewrite !zlen_app in H. pose proof (zlen_nonneg a). pose proof (zlen_nonneg b). lia.
Qed.
Definition lx_dn : dn := [[mkAtv (S_ "cn") (S_ " a, b" ++ [10; 233])]; [mkAtv (S_ "dc") (S_ "x")]].
Definition lx_entry : entry := mkEntry lx_dn
  [mkSet (PStr (S_ "objectClass")) [PStr (S_ "top"); PStr (S_ "person")];
   mkSet (PBytes (B "CN")) [PBytes (B " a"); PBytes []; PBytes (map z2b [10; 200; 0])]].
Lemma scalar_lit s : forallb (fun c => (0 <=? c) && (c <? 0xD800)) s = true -> scalar s.
Proof. intros H. apply Forall_forall. intros c I. rewrite forallb_forall in H. specialize (H c I). lia. Qed.
Lemma lx_dn_ok : ldif_dn_ok lx_dn.
Proof.
  split; [|discriminate].
  repeat (first [solve [apply scalar_lit; reflexivity]|apply Forall_nil|apply Forall_cons|split]);
    (intros X; vm_compute in X; repeat destruct X as [X|X]; congruence).
Qed.
Lemma lx_key k : existsb (fun b => (b2z b =? 10) || (b2z b =? 58)) k = false ->
  (match k with b :: _ => (b2z b =? 32) || (b2z b =? 35) | [] => false end) = false -> forall k', Ok k = Ok k' -> name_ok k'.
Proof. intros A C k' E. apply Ok_inj in E. subst. now apply name_lit. Qed.
Lemma lx_entry_ok : ldif_entry_ok ascii_lower lx_entry.
Proof.
  split; [exact lx_dn_ok|]. split.
  - repeat constructor; vm_compute; intuition congruence.
  - intros a [<-|[<-|[]]]; (split; [vm_compute; eauto|]); split.
    + intros k E. apply (lx_key (B "objectClass")); [reflexivity..|exact E].
    + right. intros v [<-|[<-|[]]]; eexists; eexists; (split; [reflexivity|vm_compute; reflexivity]).
    + intros k E. apply (lx_key (B "CN")); [reflexivity..|exact E].
    + left. intros v I. cbn in I. intuition subst; eauto.
Qed.

(** C47. The text that is written for entries, with or without the header, parses to entries with
    the same DN and values, one for each. Values are arbitrary octets; names are what a line can
    carry; [oc] is the order in which the set of "objectClass" keys is visited.
    Partial: no line is longer than 16384 octets (refuted below without this). *)
Theorem C47_ldif_roundtrip_partial : forall (lower : str -> str) (io : Z -> Z -> res Z) (vio : str -> res Z) (oc : bool) (es : list entry),
  lower_oc lower -> Forall (ldif_entry_ok lower) es ->
  exists ws es', mapR (entry_toWire lower oc) es = Ok ws /\ Forall2 same_entry es es' /\
    (Forall short_lines ws ->
       (es <> [] -> parse lower io vio false [concat ws] = (map REntry es', Ok tt)) /\
       parse lower io vio false [ldif_header ++ concat ws] = (map REntry es', Ok tt)).
Proof. intros lower io vio oc es L. exact (entries_roundtrip lower io vio oc L es). Qed.
Print Assumptions C47_ldif_roundtrip_partial.
(** A value that makes a line longer than the limit of LineReceiver: writing works, reading raises. *)
Theorem C47_long_line_refuted : exists e w, ldif_entry_ok ascii_lower e /\ entry_toWire ascii_lower true e = Ok w /\
  forall io vio, parse ascii_lower io vio false [w] = ([], Err EAttr).
Proof.
  exists (mkEntry [[mkAtv (S_ "cn") (S_ "x")]] [mkSet (PBytes (B "cn")) [PBytes (repeat (z2b 120) (Z.to_nat 16384))]]).
  eexists. split; [|split].
  - split.
    + split; [|discriminate]. repeat (first [solve [apply scalar_lit; reflexivity]|apply Forall_nil|apply Forall_cons|split]).
      intros X; vm_compute in X; repeat destruct X as [X|X]; congruence.
    + split; [repeat constructor; intros []|]. intros a [<-|[]]. split; [vm_compute; eauto|]. split.
      * intros k E. apply (lx_key (B "cn")); [reflexivity..|exact E].
      * left. intros v [<-|[]]. eauto.
  - vm_compute. reflexivity.
  - intros io vio. vm_compute. reflexivity.
Qed.
Print Assumptions C47_long_line_refuted.
Example C47_case : lower_oc ascii_lower /\ Forall (ldif_entry_ok ascii_lower) [lx_entry; lx_entry] /\
  exists w, entry_toWire ascii_lower true lx_entry = Ok w /\ short_lines w /\ says lx_entry (B "cn") (map z2b [10; 200; 0]).
Proof.
  split; [exact lx_oc|]. split; [apply Forall_cons; [exact lx_entry_ok|apply Forall_cons; [exact lx_entry_ok|apply Forall_nil]]|].
  eexists. split; [vm_compute; reflexivity|]. split; [apply short_small; vm_compute; reflexivity|].
  exists (mkSet (PBytes (B "CN")) [PBytes (B " a"); PBytes []; PBytes (map z2b [10; 200; 0])]), (B "CN").
  split; [right; now left|]. split; [reflexivity|]. split; [reflexivity|]. eexists. split; [right; right; now left|]. reflexivity.
Qed.

(** C48. Entries, change records and errors depend on the whole text only, not on its chunks. *)
Theorem C48_chunks : forall (lower : str -> str) (io : Z -> Z -> res Z) (vio : str -> res Z) (is_delta : bool) (a b : list bytes),
  concat a = concat b -> parse lower io vio is_delta a = parse lower io vio is_delta b.
Proof. intros lower io vio d. exact (chunks_irrelevant lower io vio d). Qed.
Print Assumptions C48_chunks.
Example C48_case : exists r, parse ascii_lower lx_io lx_vio false [B "dn: cn="; []; B "a" ++ [z2b 10]; B "cn: b" ++ [z2b 10]; [z2b 10]] = ([REntry r], Ok tt) /\
  e_dn r = [[mkAtv (S_ "cn") (S_ "a")]] /\
  snd (parse ascii_lower lx_io lx_vio false [B "dn: cn="; B "a" ++ [z2b 10]; B "cn: b" ++ [z2b 10]]) = Err ETruncated.
Proof. eexists. split; [vm_compute; reflexivity|]. split; vm_compute; reflexivity. Qed.

(** C49. Folding lines at any places after their first characters changes nothing, for the entry
    parser and the change parser. Partial: the unfolded line has at most 16384 octets. *)
Theorem C49_folding_partial : forall (lower : str -> str) (io : Z -> Z -> res Z) (vio : str -> res Z) (is_delta : bool) (t u : bytes),
  folds t u -> parse lower io vio is_delta [t] = parse lower io vio is_delta [u].
Proof. intros lower io vio d. exact (folds_parse lower io vio d). Qed.
Print Assumptions C49_folding_partial.
(** A longer line is refused, and accepted when it is folded. *)
Theorem C49_long_line_refuted : exists pre a b post, forall io vio,
  parse ascii_lower io vio false [pre ++ a ++ b ++ [z2b 10] ++ post] = ([], Err EAttr) /\
  exists e, parse ascii_lower io vio false [pre ++ a ++ [z2b 10; z2b 32] ++ b ++ [z2b 10] ++ post] = ([REntry e], Ok tt).
Proof.
  exists (B "dn: cn=x" ++ [z2b 10]), (B "cn: a"), (repeat (z2b 120) (Z.to_nat 16380)), [z2b 10].
  intros io vio. split; [vm_compute; reflexivity|]. eexists. vm_compute. reflexivity.
Qed.
Print Assumptions C49_long_line_refuted.
Example C49_case : folds (B "dn: cn=abc" ++ [z2b 10] ++ B "cn: b" ++ [z2b 10; z2b 10])
  (B "dn" ++ [z2b 10; z2b 32] ++ B ": cn=" ++ [z2b 10; z2b 32] ++ B "abc" ++ [z2b 10] ++ B "cn: b" ++ [z2b 10; z2b 10]).
Proof.
  eapply folds_step; [|eapply folds_step; [|apply folds_none]].
  - apply (fold_line [] (B "dn") (B ": cn=abc") (B "cn: b" ++ [z2b 10; z2b 10])); [now left|discriminate|now apply without_lit..|].
    vm_compute. discriminate.
  - apply (fold_line (B "dn" ++ [z2b 10]) (B " : cn=") (B "abc") (B "cn: b" ++ [z2b 10; z2b 10]));
      [right; eexists; reflexivity|discriminate|now apply without_lit..|vm_compute; discriminate].
Qed.

(** C50. (1) What a prefix yields is a prefix of what the full text yields. (2) If the text is fine
    and the prefix ends in an error, the error is that of a cut text. (3) A text in which the last
    record has begun (at least two lines, no blank line after) ends in an error.
    Partial: a record cut inside its first line or just after it. *)
Theorem C50_truncation_partial : forall (lower : str -> str) (io : Z -> Z -> res Z) (vio : str -> res Z) (is_delta : bool),
  (forall p q, exists r, fst (parse lower io vio is_delta [p ++ q]) = fst (parse lower io vio is_delta [p]) ++ r) /\
  (forall p q e, snd (parse lower io vio is_delta [p]) = Err e -> snd (parse lower io vio is_delta [p ++ q]) = Ok tt -> e = ETruncated) /\
  (forall pre l1 l2 rest,
    pre = [] \/ (exists p, pre = p ++ [z2b 10; z2b 10]) ->
    l1 <> [] -> without 10 l1 -> starts_with (B "#") l1 = false -> starts_with (B " ") l1 = false -> starts_with (B "version:") l1 = false ->
    l2 <> [] -> without 10 l2 -> starts_with (B " ") l2 = false -> no_blank rest ->
    exists e, snd (parse lower io vio is_delta [pre ++ l1 ++ [z2b 10] ++ l2 ++ [z2b 10] ++ rest]) = Err e).
Proof.
  intros lower io vio d. split; [exact (prefix_events lower io vio d)|]. split; [exact (truncated_error lower io vio d)|].
  exact (truncated lower io vio d).
Qed.
Print Assumptions C50_truncation_partial.
(** A text cut after the line of the DN of its second entry: no error, and the entry is missing. *)
Theorem C50_dn_line_refuted : exists p q e1 e2, forall io vio,
  parse ascii_lower io vio false [p ++ q] = ([REntry e1; REntry e2], Ok tt) /\
  parse ascii_lower io vio false [p] = ([REntry e1], Ok tt) /\ exists p', p = p' ++ B "dn: cn=b" ++ [z2b 10].
Proof.
  exists (B "dn: cn=a" ++ [z2b 10] ++ B "cn: a" ++ [z2b 10; z2b 10] ++ B "dn: cn=b" ++ [z2b 10]), (B "cn: b" ++ [z2b 10; z2b 10]).
  eexists. eexists. intros io vio. split; [vm_compute; reflexivity|]. split; [vm_compute; reflexivity|].
  exists (B "dn: cn=a" ++ [z2b 10] ++ B "cn: a" ++ [z2b 10; z2b 10]). reflexivity.
Qed.
Print Assumptions C50_dn_line_refuted.
Example C50_case : exists e, snd (parse ascii_lower lx_io lx_vio false
  [(B "dn: cn=a" ++ [z2b 10; z2b 10]) ++ B "dn: cn=b" ++ [z2b 10] ++ B "cn: b" ++ [z2b 10] ++ B "s"]) = Err e.
Proof.
  apply (C50_truncation_partial ascii_lower lx_io lx_vio false); try discriminate; try reflexivity; try (now apply without_lit).
  - right. eexists. reflexivity.
  - split; [intros b r [= <- _]; vm_compute; discriminate|]. intros a b E. destruct a as [|x a]; [discriminate|]. destruct a; discriminate.
Qed.

(** C51. The LDIF text of a modify, delete or add operation parses to one operation of the same
    kind, on the same DN, with the same contents. Partial: no line longer than 16384 octets; an add
    operation has at least one value, and attribute names without carriage returns. *)
Theorem C51_changes_partial : forall (lower : str -> str) (io : Z -> Z -> res Z) (vio : str -> res Z) (oc : bool), lower_oc lower ->
  (forall d ms, ldif_dn_ok d -> Forall ldif_delta_ok ms -> exists t ms', modify_asLDIF d ms = Ok t /\ Forall2 same_mod ms ms' /\
     (short_lines t -> parse lower io vio true [t] = ([RModify d ms'], Ok tt))) /\
  (forall d, ldif_dn_ok d -> exists t, delete_asLDIF d = Ok t /\
     (short_lines t -> parse lower io vio true [t] = ([RDelete d], Ok tt))) /\
  (forall e, ldif_entry_ok lower e -> (forall a k, In a (e_attrs e) -> to_bytes (s_key a) = Ok k -> without 13 k) ->
     (exists k v, says e k v) -> exists t e', add_asLDIF lower oc e = Ok t /\ same_entry e e' /\
     (short_lines t -> parse lower io vio true [t] = ([RAdd e'], Ok tt))).
Proof.
  intros lower io vio oc L. split; [exact (modify_roundtrip_ldif lower io vio)|]. split; [exact (delete_roundtrip lower io vio)|].
  exact (add_roundtrip lower io vio oc L).
Qed.
Print Assumptions C51_changes_partial.
(** An add operation without values is written and cannot be read; a carriage return in a name breaks the line. *)
Theorem C51_add_refuted : forall io vio,
  (exists e t, ldif_entry_ok ascii_lower e /\ add_asLDIF ascii_lower true e = Ok t /\ parse ascii_lower io vio true [t] = ([], Err ENoAttrs)) /\
  exists e t x, ldif_entry_ok ascii_lower e /\ add_asLDIF ascii_lower true e = Ok t /\ parse ascii_lower io vio true [t] = ([], Err x).
Proof.
  intros io vio. split.
  - exists (mkEntry lx_dn []). eexists. split; [|split; [vm_compute; reflexivity|vm_compute; reflexivity]].
    split; [exact lx_dn_ok|]. split; [constructor|intros a []].
  - exists (mkEntry lx_dn [mkSet (PBytes (map z2b [97; 13; 98])) [PBytes []]]). eexists. eexists. split; [|split; [vm_compute; reflexivity|vm_compute; reflexivity]].
    split; [exact lx_dn_ok|]. split; [repeat constructor; intros []|]. intros a [<-|[]]. split; [vm_compute; eauto|]. split.
    + intros k E. apply (lx_key (map z2b [97; 13; 98])); [reflexivity..|exact E].
    + left. intros v [<-|[]]. eauto.
Qed.
Print Assumptions C51_add_refuted.
Definition lx_mods : list delta := [new_delta MAdd (PStr (S_ "cn")) [PStr (S_ "z "); PStr (S_ ":q")]; new_delta MDelete (PBytes (B "sn")) [];
  new_delta MReplace (PBytes (B "mail")) [PBytes (B "-")]].
Example C51_case : ldif_dn_ok lx_dn /\ Forall ldif_delta_ok lx_mods /\ (exists k v, says lx_entry k v) /\
  exists t, modify_asLDIF lx_dn lx_mods = Ok t /\ short_lines t.
Proof.
  split; [exact lx_dn_ok|]. split; [|split].
  - apply Forall_cons; [|apply Forall_cons; [|apply Forall_cons; [|apply Forall_nil]]]; (split; [eexists; split; [vm_compute; reflexivity|apply name_lit; reflexivity]|]).
    + right. intros v I. vm_compute in I. destruct I as [<-|[<-|[]]]; eexists; eexists; (split; [reflexivity|vm_compute; reflexivity]).
    + left. intros v [].
    + left. intros v I. vm_compute in I. destruct I as [<-|[]]. eauto.
  - exists (B "objectClass"), (B "top"). exists (mkSet (PStr (S_ "objectClass")) [PStr (S_ "top"); PStr (S_ "person")]), (B "objectClass").
    split; [now left|]. split; [reflexivity|]. split; [reflexivity|]. eexists. split; [now left|]. reflexivity.
  - eexists. split; [vm_compute; reflexivity|]. apply short_small. vm_compute. reflexivity.
Qed.
