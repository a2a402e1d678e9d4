(** Proofs for DeltaModel. *)
From Verif Require Import Base BaseFacts Utf8Model Utf8Proofs DnModel DnSpec DnProofs EntryModel EntrySpec EntryProofs
  LdapModel LdapSpec LdapProofs DeltaModel DeltaSpec.

Definition mod_of (k : kind) (key : bytes) (vals : list bytes) : modification := mkMod (ldap_op k) key vals.

Lemma mod_as_ldap_obj m o : mod_as_ldap m = Ok o ->
  exists key vals, to_bytes (d_key m) = Ok key /\ mapR to_bytes (d_vals m) = Ok vals /\ o = mod_obj (mod_of (d_kind m) key vals).
Proof.
  unfold mod_as_ldap. rewrite bind_ok. intros (key & K & H). rewrite bind_ok in H. destruct H as (vals & V & H).
  apply Ok_inj in H. exists key, vals. split; [exact K|]. split; [exact V|]. subst. reflexivity.
Qed.

Lemma mapR_Forall2 {A C} (f : A -> res C) l m : mapR f l = Ok m <-> Forall2 (fun x y => f x = Ok y) l m.
Proof.
  revert m. induction l as [|x l IH]; intros m; cbn [mapR].
  - split; [intros H; apply Ok_inj in H; subst; constructor|inversion 1; reflexivity].
  - rewrite bind_ok. split.
    + intros (y & Y & H). rewrite bind_ok in H. destruct H as (t & T & H). apply Ok_inj in H. subst. constructor; [exact Y|now apply IH].
    + inversion 1 as [|? y ? t Y T]; subst. exists y. split; [exact Y|]. rewrite bind_ok. exists t. split; [now apply IH|reflexivity].
Qed.

Lemma all_some_Forall2 {A} (l : list (option A)) m : all_some l = Some m <-> Forall2 (fun x y => x = Some y) l m.
Proof.
  revert m. induction l as [|x l IH]; intros m; cbn [all_some].
  - split; [intros [= <-]; constructor|inversion 1; reflexivity].
  - destruct x as [a|].
    + split.
      * destruct (all_some l) as [t|]; [|discriminate]. intros [= <-]. constructor; [reflexivity|]. now apply IH.
      * inversion 1 as [|? y ? t Y T]; subst. injection Y as ->. apply IH in T. now rewrite T.
    + split; [discriminate|]. inversion 1; subst. discriminate.
Qed.

Lemma rd_octets_bytes l bs : all_some (map rd_octets l) = Some bs -> mapR bytes_value l = Ok (map PBytes bs).
Proof.
  rewrite all_some_Forall2, mapR_Forall2. revert bs. induction l as [|o l IH]; intros bs F; inversion F as [|? b ? bs' E F']; subst; cbn [map]; constructor; auto.
  destruct o; try discriminate. cbn in E. injection E as <-. reflexivity.
Qed.

Lemma class_of_op_ldap k : class_of_op (VInt (ldap_op k)) = Some k.
Proof. destruct k; reflexivity. Qed.

Lemma mod_from_read o k key vals : rd_mod o = Some (mod_of k key vals) -> mod_from_ldap o = Ok (new_delta k (PBytes key) (map PBytes vals)).
Proof.
  intros H. destruct o; try discriminate. destruct l as [|op [|av [|]]]; try discriminate; try (destruct op; discriminate).
  destruct op; try discriminate. cbn [rd_mod] in H. destruct av; try discriminate.
  destruct l as [|a [|vs [|]]]; try discriminate; try (destruct vs; discriminate).
  destruct vs; try discriminate. cbn [rd_attr] in H. unfold opt2 in H.
  destruct (rd_octets a) as [ka|] eqn:Ka; [|discriminate]. destruct (all_some (map rd_octets l)) as [vb|] eqn:Vb; [|discriminate].
  cbn [option_map fst snd] in H. injection H as -> -> ->.
  cbn [mod_from_ldap iter_of data_of bind value_of]. rewrite class_of_op_ldap. cbn [bind].
  destruct a; try discriminate. cbn in Ka. injection Ka as ->. cbn [bytes_value value_of bind].
  now rewrite (rd_octets_bytes _ _ Vb).
Qed.

Lemma denotes_bytes vs bs : mapR to_bytes vs = Ok bs -> forall c, denotes vs c <-> In c bs.
Proof.
  rewrite mapR_Forall2. induction 1 as [|v b vs bs E F IH]; intros c.
  - split; [intros (v & [] & _)|intros []].
  - split.
    + intros (x & [<-|I] & X); [left; congruence|]. right. apply IH. exists x. auto.
    + intros [<-|I]; [exists v; split; [now left|exact E]|]. apply IH in I as (x & I & X). exists x. split; [now right|exact X].
Qed.

Lemma new_delta_same m key vals : to_bytes (d_key m) = Ok key -> mapR to_bytes (d_vals m) = Ok vals ->
  same_mod m (new_delta (d_kind m) (PBytes key) (map PBytes vals)).
Proof.
  intros K V. unfold new_delta. split; [reflexivity|]. cbn [d_key d_vals]. split; [exists key; split; [exact K|reflexivity]|].
  split; [eauto|]. split; [apply NoDup_set_of|]. split.
  - intros v I. apply (proj1 (In_set_of _ _)) in I. apply in_map_iff in I as (b & <- & _). eauto.
  - intros c. rewrite (denotes_bytes _ _ V). unfold denotes. split.
    + intros I. exists (PBytes c). split; [|reflexivity]. apply In_set_of, in_map, I.
    + intros (v & I & E). apply (proj1 (In_set_of _ _)) in I. apply in_map_iff in I as (b & <- & I). cbn in E. apply Ok_inj in E. now subst.
Qed.

Lemma modify_roundtrip io d ms id cs o w rest : dn_ok d ->
  as_ldap d ms = Ok o -> toWire (message_obj id o cs) = Ok w ->
  exists m, decode ctx_top (w ++ rest) = Ok (Some m, zlen w) /\ toWire m = Ok w /\
    exists tag op cs', m = OMessage tag (VInt id) op cs' /\
    exists ms', from_ldap io op = Ok (d, ms') /\ Forall2 same_mod ms ms'.
Proof.
  intros D A W. unfold as_ldap in A. rewrite bind_ok in A. destruct A as (t & T & A).
  rewrite bind_ok in A. destruct A as (l & L & A). apply Ok_inj in A.
  assert (X : exists mods, l = map mod_obj mods /\
            Forall2 (fun m x => exists key vals, to_bytes (d_key m) = Ok key /\ mapR to_bytes (d_vals m) = Ok vals /\ x = mod_of (d_kind m) key vals) ms mods).
  { rewrite mapR_Forall2 in L. clear -L. induction L as [|m o ms l E F (mods & -> & IH)]; [exists []; split; [reflexivity|constructor]|].
    apply mod_as_ldap_obj in E as (key & vals & K & V & ->). exists (mod_of (d_kind m) key vals :: mods).
    split; [reflexivity|]. constructor; [|exact IH]. exists key, vals. auto. }
  destruct X as (mods & -> & FM).
  assert (O : o = request_obj (Modify t mods)) by (subst o; reflexivity). clear A. rewrite O in W.
  destruct (request_message_roundtrip id (Modify t mods) cs w rest W) as (m & DE & RM & TW). exists m.
  split; [exact DE|]. split; [exact TW|]. destruct m; try discriminate.
  cbn [read_message seen_request] in RM. destruct (rd_int id0) as [i|] eqn:RI; [|discriminate].
  destruct (read_request m) as [rq|] eqn:RQ; [|discriminate].
  match type of RM with context [match ?x with Some _ => _ | None => None end] => destruct x; [|discriminate] end.
  injection RM as -> -> _. destruct id0; try discriminate. cbn in RI. injection RI as ->.
  exists tag, m, controls. split; [reflexivity|].
  destruct m as [| |k' ? ?|k' ?| | | | | |? ? ? ?| |? ? ? []| | | | | |? ? ml|? ? []| |? ? []|]; try discriminate; try (destruct k'; discriminate); cbn [read_request] in RQ.
  all: try (match type of RQ with context [match ?x with _ => _ end] => idtac end).
  all: unfold opt2 in RQ; repeat match type of RQ with match ?x with _ => _ end = _ => destruct x eqn:?; try discriminate end; try discriminate.
  injection RQ as -> ->. destruct object; try discriminate. match goal with H : rd_bytes _ = Some _ |- _ => cbn in H; injection H as -> end.
  cbn [from_ldap]. match goal with H : all_some _ = Some _ |- _ => rename H into AS end.
  assert (MF : exists ms', mapR mod_from_ldap ml = Ok ms' /\ Forall2 same_mod ms ms').
  { clear -AS FM. rewrite all_some_Forall2 in AS. revert ml AS. induction FM as [|m x ms mods (key & vals & K & V & ->) F IH]; intros ml AS.
    - inversion AS as [E|]; subst. destruct ml; [|discriminate]. exists []. split; [reflexivity|constructor].
    - destruct ml as [|o ml]; [inversion AS|]. cbn [map] in AS. inversion AS as [|? ? ? ? E AS']; subst.
      destruct (IH ml AS') as (ms' & M & FF). eexists. cbn [mapR]. rewrite (mod_from_read _ _ _ _ E). cbn [bind]. rewrite M. cbn [bind].
      split; [reflexivity|]. constructor; [now apply new_delta_same|exact FF]. }
  destruct MF as (ms' & M & FF). exists ms'. rewrite M. cbn [bind]. rewrite (proj2 (utf8_iff _ _) T). cbn [bind].
  rewrite (parse_dn_text io d D). cbn [bind]. split; [reflexivity|exact FF].
Qed.
