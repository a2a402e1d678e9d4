(** Proofs for C85 and C86. *)
From Coq Require Import Permutation.
From Verif Require Import Base BaseFacts Utf8Model Utf8Proofs DnModel DnSpec DnProofs EntryModel EntrySpec EntryProofs LdapModel LdapSpec ServerModel
  SyntaxModel SyntaxSpec SyntaxProofs SyntaxRuns SyntaxFetch InmemProofs LdifRound SchemaModel SchemaSpec SchemaProofs FetchSchemaModel FetchSchemaSpec.

Definition as_items (ats : list (bytes * list bytes)) : list (pyval * list pyval) := map (fun kv => (PBytes (fst kv), map PBytes (snd kv))) ats.
Section P.
  Variable lower : str -> str.
  Variable io : Z -> Z -> res Z.
  Notation lowv := (EntryModel.lowv lower).

  Lemma key_octets d ats a : In a (e_attrs (new_entry lower d (as_items ats))) -> exists b, s_key a = PBytes b.
  Proof.
    intros I. unfold new_entry in I. cbn [e_attrs] in I. apply in_map_iff in I as (a0 & <- & I). cbn [s_key].
    destruct (init_loop_ok lower (as_items ats) [] (NoDup_nil _)) as (_ & A). destruct (A a0 I) as [(a1 & [] & _)|(vs & J & _)].
    apply in_map_iff in J as ((k & vs0) & E & _). exists k. cbn [fst] in E. congruence.
  Qed.
  (** Looking up an attribute of an entry as it was sent *)
  Lemma found_values d ats s b : utf8_encode s = Ok b ->
    exists o, find_key lower (PStr s) (new_entry lower d (as_items ats)) = Ok o /\
      match o with
      | None => ~ sent_name ats (lower_bytes b)
      | Some a => sent_name ats (lower_bytes b) /\ exists vs, s_vals a = map PBytes vs /\ lists vs (sent ats (lower_bytes b))
      end.
  Proof.
    intros E. set (e := new_entry lower d (as_items ats)). unfold find_key. cbn [get_strings]. rewrite E. cbn [bind fold_right].
    assert (N : dict_get lower (PStr s) (e_attrs e) = None).
    { destruct (dict_get lower (PStr s) (e_attrs e)) as [a|] eqn:G; [|reflexivity]. apply dict_get_some in G as (I & L). destruct (key_octets d ats a I) as (k & K).
      rewrite K in L. discriminate. }
    rewrite N. eexists. split; [reflexivity|].
    pose proof (new_entry_spec lower d (as_items ats) (PBytes b)) as SP. fold e in SP.
    assert (HS : EntrySpec.has lower e (PBytes b) <-> sent_name ats (lower_bytes b)).
    { rewrite (proj1 (SP (PBytes []))). split.
      - intros (k & vs & I & L). apply in_map_iff in I as ((k0 & vs0) & Q & I). injection Q as <- <-. exists k0, vs0. split; [exact I|]. cbn [EntryModel.lowv fst] in L. congruence.
      - intros (k & vs & I & L). exists (PBytes k), (map PBytes vs). split; [apply in_map_iff; exists (k, vs); auto|]. cbn [EntryModel.lowv]. congruence. }
    assert (HV : forall v, EntrySpec.holds lower e (PBytes b) v <-> exists x, v = PBytes x /\ sent ats (lower_bytes b) x).
    { intros v. rewrite (proj2 (SP v)). split.
      - intros (k & vs & I & L & V). apply in_map_iff in I as ((k0 & vs0) & Q & I). injection Q as <- <-. cbn [snd] in V. apply in_map_iff in V as (x & <- & V). exists x. split; [reflexivity|].
        exists k0, vs0. split; [exact I|]. split; [|exact V]. cbn [EntryModel.lowv fst] in L. congruence.
      - intros (x & -> & k & vs & I & L & V). exists (PBytes k), (map PBytes vs). split; [apply in_map_iff; exists (k, vs); auto|]. split; [cbn [EntryModel.lowv]; congruence|]. now apply in_map. }
    assert (ND : NoDup (lowkeys lower (e_attrs e))).
    { destruct (init_loop_ok lower (as_items ats) [] (NoDup_nil _)) as (ND & _). unfold e, new_entry. cbn [e_attrs]. unfold lowkeys. rewrite map_map. exact ND. }
    destruct (dict_get lower (PBytes b) (e_attrs e)) as [a|] eqn:G; cbv beta iota.
    - pose proof G as G0. apply dict_get_some in G as (I & L). split; [apply HS; exists a; auto|].
      assert (VS : forall v, In v (s_vals a) <-> exists x, v = PBytes x /\ sent ats (lower_bytes b) x).
      { intros v. rewrite <- HV. split; [intros V; exists a; auto|]. intros (a' & I' & L' & V). rewrite (dict_get_In lower _ _ _ ND I' L') in G0. injection G0 as ->. exact V. }
      assert (NV : NoDup (s_vals a)). { unfold e, new_entry in I. cbn [e_attrs] in I. apply in_map_iff in I as (a0 & <- & _). apply NoDup_set_of. }
      assert (X : exists vs, s_vals a = map PBytes vs).
      { assert (Q : forall v, In v (s_vals a) -> exists x, v = PBytes x) by (intros v V; apply VS in V as (x & -> & _); eauto). clear - Q.
        induction (s_vals a) as [|v l IH]; [exists []; reflexivity|]. destruct (Q v (or_introl eq_refl)) as (x & ->). destruct IH as (vs & ->); [intros; apply Q; now right|]. exists (x :: vs). reflexivity. }
      destruct X as (vs & X). exists vs. split; [exact X|]. rewrite X in NV, VS. split; [exact (NoDup_map_inv _ _ NV)|]. intros x. split.
      + intros H. apply (in_map PBytes) in H. apply VS in H as (y & [= ->] & H). exact H.
      + intros H. assert (V : In (PBytes x) (map PBytes vs)) by (apply VS; eauto). apply in_map_iff in V as (y & [= ->] & V). exact V.
    - intros H. apply HS in H as (a & I & L). exact (dict_get_none lower _ _ G a I L).
  Qed.
  Lemma found_get d ats s b : utf8_encode s = Ok b -> exists vs, get_values lower (PStr s) (new_entry lower d (as_items ats)) = Ok (map PBytes vs) /\ lists vs (sent ats (lower_bytes b)).
  Proof.
    intros E. destruct (found_values d ats s b E) as (o & F & H). unfold get_values. rewrite F. cbn [bind]. destruct o as [a|].
    - destruct H as (_ & vs & -> & L). exists vs. auto.
    - exists []. split; [reflexivity|]. split; [constructor|]. intros x. split; [intros []|]. intros (k & vs & I & L & _). destruct H. exists k, vs. auto.
  Qed.

  (** What a search sends and gets *)
  Lemma fs_sends attrs size d b : utf8_encode (dn_text d) = Ok b ->
    c_search (Ok match_all) (Some attrs) 0 0 size 0 0 None (new_cent lower d []) = ([asks size b attrs], Ok XNone).
  Proof. intros E. unfold c_search. cbn [check y_deleted new_cent bind]. unfold text_pv, y_dn, new_cent, new_entry. cbn [y_entry e_dn]. rewrite E. reflexivity. Qed.
  Definition fresh (r : response) (c : cent) : Prop :=
    match r with SearchEntry _ ats => exists d, c = new_cent lower d (as_items ats) | _ => False end.
  Lemma search_over rs r extra : Forall (search_part io) rs -> exists cs, Forall2 fresh (List.filter is_entry rs) cs /\
    search_run lower io false (map response_obj rs) (mkSres [] None) = mkSres cs None /\
    (over r -> search_run lower io false (answers rs r extra) (mkSres [] None) = mkSres cs (Some (Ok tt))) /\
    (r_code r <> 0 -> r_code r <> 4 -> search_run lower io false (answers rs r extra) (mkSres [] None) = mkSres cs (Some (Err (ELdap (r_code r))))).
  Proof.
    intros F. destruct (search_raw lower io false rs F) as (cs & F2 & H). exists cs. split; [exact F2|].
    split. { pose proof (H [] (mkSres [] None)) as H0. rewrite app_nil_r in H0. rewrite H0. reflexivity. }
    unfold answers. rewrite H. cbn [q_found q_end app search_run search_msg response_obj result_obj]. split.
    - intros ([-> | ->] & ->); reflexivity.
    - intros N0 N4. destruct (r_code r) as [|p|p]; [congruence| |reflexivity]. destruct p as [p|[p|[p|p|]|]|]; reflexivity || congruence.
  Qed.

  Variable order : list pyval -> list pyval.
  Hypothesis order_perm : forall l, Permutation (order l) l.
  Lemma order_map vs : exists vs', order (map PBytes vs) = map PBytes vs' /\ Permutation vs' vs.
  Proof.
    pose proof (order_perm (map PBytes vs)) as P. apply Permutation_map_inv in P as (l & E & P). exists l. split; [exact E|now apply Permutation_sym].
  Qed.
  Lemma lists_perm {A} (l l' : list A) P : Permutation l' l -> lists l P -> lists l' P.
  Proof.
    intros Q (N & I). split; [exact (Permutation_NoDup (Permutation_sym Q) N)|]. intros x. rewrite <- I. split; apply Permutation_in; [exact Q|now apply Permutation_sym].
  Qed.

  (** *** The subschemaSubentry *)
  Lemma subentry_one d ats v : (forall x, sent ats (B "subschemasubentry") x <-> x = v) -> fs_subentry lower order [new_cent lower d (as_items ats)] = Ok (PBytes v).
  Proof.
    intros H. unfold fs_subentry. cbn [check new_cent y_deleted bind]. destruct (found_values d ats (S_ "subschemaSubentry") (B "subschemaSubentry") eq_refl) as (o & F & HO).
    unfold has_key, getitem. cbn [y_entry new_cent]. rewrite F. cbn [bind]. change (lower_bytes (B "subschemaSubentry")) with (B "subschemasubentry") in HO. destruct o as [a|].
    - cbn [bind]. destruct HO as (_ & vs & -> & L). destruct (order_map vs) as (vs' & -> & P). pose proof (lists_perm _ _ _ P L) as (N & I).
      assert (IV : In v vs') by (apply I; now apply H). assert (ALL : forall x, In x vs' -> x = v) by (intros x X; apply I in X; now apply H in X).
      destruct vs' as [|x [|y l]]; [destruct IV| |].
      + rewrite (ALL x (or_introl eq_refl)). reflexivity.
      + exfalso. apply NoDup_cons_iff in N as (N & _). apply N. rewrite (ALL x (or_introl eq_refl)), <- (ALL y (or_intror (or_introl eq_refl))). now left.
    - destruct HO. pose proof (proj2 (H v) eq_refl) as (k & vs & I & L & _). exists k, vs. auto.
  Qed.
  Lemma subentry_bad d ats : (forall v, ~ forall x, sent ats (B "subschemasubentry") x <-> x = v) -> fs_subentry lower order [new_cent lower d (as_items ats)] = Err EAssert.
  Proof.
    intros H. unfold fs_subentry. cbn [check new_cent y_deleted bind]. destruct (found_values d ats (S_ "subschemaSubentry") (B "subschemaSubentry") eq_refl) as (o & F & HO).
    unfold has_key, getitem. cbn [y_entry new_cent]. rewrite F. cbn [bind]. change (lower_bytes (B "subschemaSubentry")) with (B "subschemasubentry") in HO. destruct o as [a|]; [|reflexivity].
    cbn [bind]. destruct HO as (_ & vs & -> & L). destruct (order_map vs) as (vs' & -> & P). pose proof (lists_perm _ _ _ P L) as (N & I).
    destruct vs' as [|x [|y l]]; [reflexivity| |reflexivity]. destruct (H x). intros z. rewrite <- I. cbn [In]. split; [intros [<-|[]]; reflexivity|intros ->; now left].
  Qed.

  (** *** The descriptions *)
  Lemma parse_all {D} (parse : bytes -> res D) (text : D -> bytes -> Prop) : (forall x t, text x t -> parse t = Ok x) ->
    forall vs, (forall t, In t vs -> exists x, text x t) -> exists ds, mapR (fun t => do b <- to_bytes t; parse b) (map PBytes vs) = Ok ds /\ Forall2 text ds vs.
  Proof.
    intros PT vs. induction vs as [|t vs IH]; intros H; [exists []; split; [reflexivity|constructor]|].
    destruct (H t (or_introl eq_refl)) as (x & X). destruct IH as (ds & E & F); [intros; apply H; now right|]. exists (x :: ds). split; [|now constructor].
    cbn [map mapR to_bytes bind]. rewrite (PT x t X). cbn [bind]. rewrite E. reflexivity.
  Qed.
  Lemma schema_one d ats : (forall t, sent ats (B "attributetypes") t -> exists x, atd_text x t) -> (forall t, sent ats (B "objectclasses") t -> exists x, ocd_text x t) ->
    exists ads ods ts os, fs_schema lower order [new_cent lower d (as_items ats)] = (if (length ads =? 0)%nat then Err EAssert else Ok (ads, ods)) /\
      lists ts (sent ats (B "attributetypes")) /\ Forall2 atd_text ads ts /\ lists os (sent ats (B "objectclasses")) /\ Forall2 ocd_text ods os.
  Proof.
    intros HA HO. unfold fs_schema. cbn [check new_cent y_deleted bind y_entry].
    destruct (found_get d ats (S_ "attributeTypes") (B "attributeTypes") eq_refl) as (ts & -> & LT). destruct (found_get d ats (S_ "objectClasses") (B "objectClasses") eq_refl) as (os & -> & LO).
    change (lower_bytes (B "attributeTypes")) with (B "attributetypes") in LT. change (lower_bytes (B "objectClasses")) with (B "objectclasses") in LO. cbn [bind].
    destruct (order_map ts) as (ts' & -> & PT). destruct (order_map os) as (os' & -> & PO). pose proof (lists_perm _ _ _ PT LT) as LT'. pose proof (lists_perm _ _ _ PO LO) as LO'.
    destruct (parse_all parse_atd atd_text parse_atd_text ts') as (ads & -> & FA). { intros t I. apply HA. now apply (proj2 LT'). }
    destruct (parse_all parse_ocd ocd_text parse_ocd_text os') as (ods & -> & FO). { intros t I. apply HO. now apply (proj2 LO'). }
    cbn [bind]. exists ads, ods, ts', os'. split; [destruct ads; reflexivity|]. auto.
  Qed.

  Lemma fetch_schema_spec rs1 r1 e1 rs2 r2 e2 base b1 n1 ats1 v t d b2 n2 ats2 :
    Forall (search_part io) rs1 -> Forall (search_part io) rs2 -> over r1 -> over r2 ->
    utf8_encode (dn_text base) = Ok b1 -> List.filter is_entry rs1 = [SearchEntry n1 ats1] -> (forall x, sent ats1 (B "subschemasubentry") x <-> x = v) ->
    utf8_decode v = Ok t -> parse_dn io t = Ok d -> utf8_encode (dn_text d) = Ok b2 -> List.filter is_entry rs2 = [SearchEntry n2 ats2] ->
    (forall t, sent ats2 (B "attributetypes") t -> exists x, atd_text x t) -> (forall t, sent ats2 (B "objectclasses") t -> exists x, ocd_text x t) -> (exists t, sent ats2 (B "attributetypes") t) ->
    exists ads ods ts os, fetch_schema lower io order None None base (answers rs1 r1 e1) (answers rs2 r2 e2) =
        ([asks 1 b1 [B "subschemaSubentry"]; asks 1 b2 [B "attributeTypes"; B "objectClasses"]], Some (Ok (ads, ods))) /\
      lists ts (sent ats2 (B "attributetypes")) /\ Forall2 atd_text ads ts /\ lists os (sent ats2 (B "objectclasses")) /\ Forall2 ocd_text ods os.
  Proof.
    intros F1 F2 O1 O2 B1 S1 V T P B2 S2 HA HO (t0 & T0).
    destruct (search_over rs1 r1 e1 F1) as (cs1 & C1 & _ & Q1 & _). destruct (search_over rs2 r2 e2 F2) as (cs2 & C2 & _ & Q2 & _).
    rewrite S1 in C1. rewrite S2 in C2. inversion C1 as [|? c1 ? ? X1 Y1]; subst. inversion Y1; subst. inversion C2 as [|? c2 ? ? X2 Y2]; subst. inversion Y2; subst.
    cbn [fresh] in X1, X2. destruct X1 as (d1 & ->). destruct X2 as (d2 & ->).
    destruct (schema_one d2 ats2 HA HO) as (ads & ods & ts & os & E & LT & FA & LO & FO). exists ads, ods, ts, os. split; [|auto].
    unfold fetch_schema, fs_search. rewrite (fs_sends _ _ base b1 B1). cbn [after]. rewrite (Q1 O1). cbn [q_end q_found].
    rewrite (subentry_one d1 ats1 v V). unfold fetch_cb, value_dn. cbn [to_dn]. rewrite T. cbn [bind]. rewrite P. unfold fs_search. rewrite (fs_sends _ _ d b2 B2). cbn [after]. rewrite (Q2 O2). cbn [q_end q_found].
    rewrite E. destruct ads as [|a ads]; [|reflexivity]. exfalso. apply (proj2 LT) in T0. inversion FA; subst. destruct T0.
  Qed.
  (** The first search does not give one entry with one value, or fails: nothing more is sent. *)
  Lemma fetch_schema_first rs1 r1 e1 msgs2 net2 base b1 : Forall (search_part io) rs1 -> utf8_encode (dn_text base) = Ok b1 ->
    fetch_schema lower io order None net2 base (map response_obj rs1) msgs2 = ([asks 1 b1 [B "subschemaSubentry"]], None) /\
    let x := fetch_schema lower io order None net2 base (answers rs1 r1 e1) msgs2 in
    (r_code r1 <> 0 -> r_code r1 <> 4 -> x = ([asks 1 b1 [B "subschemaSubentry"]], Some (Err (ELdap (r_code r1))))) /\
    (over r1 -> length (List.filter is_entry rs1) <> 1%nat -> x = ([asks 1 b1 [B "subschemaSubentry"]], Some (Err (ELdap 80)))) /\
    (over r1 -> forall n ats, List.filter is_entry rs1 = [SearchEntry n ats] -> (forall v, ~ forall x, sent ats (B "subschemasubentry") x <-> x = v) ->
       x = ([asks 1 b1 [B "subschemaSubentry"]], Some (Err EAssert))).
  Proof.
    intros F1 B1. destruct (search_over rs1 r1 e1 F1) as (cs1 & C1 & Q0 & Q1 & Q2). unfold fetch_schema, fs_search. rewrite (fs_sends _ _ base b1 B1). cbn [after].
    split; [rewrite Q0; reflexivity|]. cbv zeta. split; [|split].
    - intros N0 N4. rewrite (Q2 N0 N4). reflexivity.
    - intros O L. rewrite (Q1 O). cbn [q_end q_found]. rewrite (Forall2_len _ _ _ C1) in L. destruct cs1 as [|c [|c' cs]]; [reflexivity|destruct (L eq_refl)|reflexivity].
    - intros O n ats S1 V. rewrite (Q1 O). cbn [q_end q_found]. rewrite S1 in C1. inversion C1 as [|? c1 ? ? X1 Y1]; subst. inversion Y1; subst. destruct X1 as (d1 & ->). rewrite (subentry_bad d1 ats V). reflexivity.
  Qed.
  (** Likewise for the second *)
  Lemma fetch_cb_spec rs r e v t d b : Forall (search_part io) rs -> utf8_decode v = Ok t -> parse_dn io t = Ok d -> utf8_encode (dn_text d) = Ok b ->
    let q := [asks 1 b [B "attributeTypes"; B "objectClasses"]] in
    fetch_cb lower io order None (PBytes v) (map response_obj rs) = (q, None) /\
    let x := fetch_cb lower io order None (PBytes v) (answers rs r e) in
    (r_code r <> 0 -> r_code r <> 4 -> x = (q, Some (Err (ELdap (r_code r))))) /\
    (over r -> length (List.filter is_entry rs) <> 1%nat -> x = (q, Some (Err (ELdap 80)))).
  Proof.
    intros F T P B1. destruct (search_over rs r e F) as (cs1 & C1 & Q0 & Q1 & Q2). unfold fetch_cb, value_dn. cbn [to_dn]. rewrite T. cbn [bind]. rewrite P. unfold fs_search. rewrite (fs_sends _ _ d b B1). cbn [after].
    cbv zeta. split; [rewrite Q0; reflexivity|]. split.
    - intros N0 N4. rewrite (Q2 N0 N4). reflexivity.
    - intros O L. rewrite (Q1 O). cbn [q_end q_found]. rewrite (Forall2_len _ _ _ C1) in L. destruct cs1 as [|c [|c' cs]]; [reflexivity|destruct (L eq_refl)|reflexivity].
  Qed.

  (** *** The naming context *)
  Lemma context_in_spec vs self : (forall v, In v vs -> exists t d, utf8_decode v = Ok t /\ parse_dn io t = Ok d) ->
    exists x, context_in lower io (map PBytes vs) self = Ok x /\
      match x with
      | Some d => contains lower d self = true /\ exists v t, In v vs /\ utf8_decode v = Ok t /\ parse_dn io t = Ok d
      | None => forall v t d, In v vs -> utf8_decode v = Ok t -> parse_dn io t = Ok d -> contains lower d self = false
      end.
  Proof.
    induction vs as [|v vs IH]; intros H; [exists None; split; [reflexivity|]; intros v t d []|].
    destruct (H v (or_introl eq_refl)) as (t & d & T & P). cbn [map context_in value_dn to_dn]. rewrite T. cbn [bind]. rewrite P. cbn [bind]. destruct (contains lower d self) eqn:C.
    - exists (Some d). split; [reflexivity|]. split; [exact C|]. exists v, t. split; [now left|auto].
    - destruct IH as (x & E & X); [intros; apply H; now right|]. exists x. split; [exact E|]. destruct x as [d'|].
      + destruct X as (C' & v' & t' & I & T' & P'). split; [exact C'|]. exists v', t'. split; [now right|auto].
      + intros v' t' d' [<-|I] T' P'; [|exact (X v' t' d' I T' P')]. rewrite T in T'. injection T' as <-. rewrite P in P'. injection P' as <-. exact C.
  Qed.
  Lemma context_done_spec rs cs self : Forall2 fresh rs cs ->
    (forall n ats v, In (SearchEntry n ats) rs -> sent ats (B "namingcontexts") v -> exists t d, utf8_decode v = Ok t /\ parse_dn io t = Ok d) ->
    match context_done lower io order cs self with
    | Ok d => announced io rs d /\ in_tree lower d self
    | Err e => e = ENoContext /\ forall d, announced io rs d -> ~ in_tree lower d self
    end.
  Proof.
    intros F. induction F as [|r c rs cs X F IH]; intros H.
    - split; [reflexivity|]. intros d (n & ats & v & t & [] & _).
    - destruct r as [| n ats | | | | | | | | ]; try contradiction. destruct X as (d1 & ->). cbn [context_done check new_cent y_deleted bind y_entry].
      destruct (found_get d1 ats (S_ "namingContexts") (B "namingContexts") eq_refl) as (vs & -> & L). change (lower_bytes (B "namingContexts")) with (B "namingcontexts") in L. cbn [bind].
      destruct (order_map vs) as (vs' & -> & P). pose proof (lists_perm _ _ _ P L) as (_ & I).
      destruct (context_in_spec vs' self) as (x & -> & Y). { intros v V. apply (H n ats v (or_introl eq_refl)). now apply I. }
      cbn [bind]. destruct x as [d|].
      + destruct Y as (C & v & t & V & T & PD). split; [|now apply (proj1 (contains_order lower))]. exists n, ats, v, t. split; [now left|]. split; [now apply I|auto].
      + specialize (IH (fun n ats v J => H n ats v (or_intror J))). destruct (context_done lower io order cs self) as [d|e].
        * destruct IH as ((n' & ats' & v & t & J & R) & T). split; [|exact T]. exists n', ats', v, t. split; [now right|exact R].
        * destruct IH as (-> & IH). split; [reflexivity|]. intros d (n' & ats' & v & t & [J|J] & S1 & T & PD).
          -- injection J as <- <-. intros C. apply (proj1 (contains_order lower)) in C. assert (Q : contains lower d self = false) by (apply (Y v t d); [now apply I|exact T|exact PD]). congruence.
          -- apply IH. exists n', ats', v, t. auto.
  Qed.
  Lemma announced_filter rs d : announced io (List.filter is_entry rs) d <-> announced io rs d.
  Proof.
    unfold announced. split; intros (n & ats & v & t & I & R); exists n, ats, v, t; (split; [|exact R]); [apply filter_In in I; tauto|apply filter_In; auto].
  Qed.
  Lemma naming_context_spec rs r extra c : Forall (search_part io) rs ->
    (forall n ats v, In (SearchEntry n ats) rs -> sent ats (B "namingcontexts") v -> exists t d, utf8_decode v = Ok t /\ parse_dn io t = Ok d) ->
    naming_context lower io order None c (map response_obj rs) = ([asks 0 [] [B "namingContexts"]], None) /\
    exists x, naming_context lower io order None c (answers rs r extra) = ([asks 0 [] [B "namingContexts"]], x) /\
      (over r -> (exists d, x = Some (Ok d) /\ announced io rs d /\ in_tree lower d (y_dn c)) \/
                 (x = Some (Err ENoContext) /\ forall d, announced io rs d -> ~ in_tree lower d (y_dn c))) /\
      (r_code r <> 0 -> r_code r <> 4 -> x = Some (Err (ELdap (r_code r)))).
  Proof.
    intros F H. destruct (search_over rs r extra F) as (cs & C & Q0 & Q1 & Q2). unfold naming_context, c_naming_context. rewrite (fs_sends _ _ [] [] eq_refl). cbn [after].
    split; [rewrite Q0; reflexivity|].
    assert (K := context_done_spec _ cs (y_dn c) C (fun n ats v J => H n ats v (proj1 (proj1 (filter_In _ _ _) J)))).
    destruct (q_end (search_run lower io false (answers rs r extra) (mkSres [] None))) as [[u|e]|] eqn:E.
    - eexists. split; [reflexivity|]. split.
      + intros O. rewrite (Q1 O). cbn [q_found]. destruct (context_done lower io order cs (y_dn c)) as [d|e].
        * left. exists d. split; [reflexivity|]. now rewrite announced_filter in K.
        * right. destruct K as (-> & K). split; [reflexivity|]. intros d A. apply K. now apply announced_filter.
      + intros N0 N4. rewrite (Q2 N0 N4) in E. discriminate.
    - eexists. split; [reflexivity|]. split; [intros O; rewrite (Q1 O) in E; discriminate|]. intros N0 N4. rewrite (Q2 N0 N4) in E. cbn [q_end] in E. congruence.
    - eexists. split; [reflexivity|]. split; [intros O; rewrite (Q1 O) in E; discriminate|]. intros N0 N4. rewrite (Q2 N0 N4) in E. discriminate.
  Qed.
End P.
