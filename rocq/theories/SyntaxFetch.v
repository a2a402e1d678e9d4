(** Proofs about client-side entries: fetch, answers, Samba passwords. *)
From Coq Require Import Permutation.
From Verif Require Import Base BaseFacts Utf8Model Utf8Proofs DnModel DnSpec EntryModel EntrySpec EntryProofs LdapModel LdapSpec DeltaModel DeltaProofs LdifModel LdifRound DiffProofs ServerModel ServerSpec
  ServerSearch InmemModel InmemProofs SyntaxModel SyntaxSpec SyntaxProofs SyntaxRuns.

Lemma named_dec ks k : named ks k \/ ~ named ks k.
Proof.
  induction ks as [|n ks [(m & b & I & E & L)|N]].
  - right. intros (n & b & [] & _).
  - left. exists m, b. split; [now right|auto].
  - destruct (to_bytes n) as [b|x] eqn:E.
    + destruct (list_eq_dec Byte.byte_eq_dec (lower_bytes b) k) as [L|L].
      * left. exists n, b. split; [now left|auto].
      * right. intros (m & b' & [<-|I] & E' & L'); [rewrite E in E'; apply Ok_inj in E'; subst; congruence|]. apply N. exists m, b'. auto.
    + right. intros (m & b' & [<-|I] & E' & L'); [rewrite E in E'; discriminate|]. apply N. exists m, b'. auto.
Qed.

Lemma NoDup_map_filter {A C} (f : A -> C) g l : NoDup (map f l) -> NoDup (map f (List.filter g l)).
Proof.
  induction l as [|x l IH]; [constructor|]. cbn [map List.filter]. intros N. apply NoDup_cons_iff in N as (NI & N). destruct (g x); [|auto]. cbn [map]. constructor; [|auto].
  intros I. apply NI. apply in_map_iff in I as (y & E & I). apply filter_In in I as (I & _). apply in_map_iff. eauto.
Qed.

Section Fetch.
  Variable lower : str -> str.
  Variable io : Z -> Z -> res Z.
  Variable oc_first : bool.
  Hypothesis lower_std : forall s, ascii s -> lower s = ascii_lower s.
  Notation lowv := (EntryModel.lowv lower).
  Notation dict_get := (EntryModel.dict_get lower).

  (** The entry has an attribute with this name in lower case. *)
  Definition shows (e : entry) (k : bytes) : Prop := named (keys_of e) k.
  Lemma shows_attr e k : shows e k <-> exists a b, In a (e_attrs e) /\ to_bytes (s_key a) = Ok b /\ lower_bytes b = k.
  Proof.
    unfold shows, named, keys_of. split.
    - intros (n & b & I & E & L). apply in_map_iff in I as (a & <- & I). exists a, b. auto.
    - intros (a & b & I & E & L). exists (s_key a), b. split; [now apply in_map|auto].
  Qed.
  Lemma octs_shows e k v : octs e k v -> shows e k.
  Proof. intros (a & kb & I & K & L & _). apply shows_attr. exists a, kb. auto. Qed.

  Lemma find_bytes_key vt o k kb : entry_ok lower false vt o -> to_bytes k = Ok kb -> convertible k -> find_key lower k o = Ok (dict_get (PBytes kb) (e_attrs o)) /\ typed false (PBytes kb).
  Proof.
    intros O E C. assert (N : forall s, dict_get (PStr s) (e_attrs o) = None).
    { intros s. destruct (dict_get (PStr s) (e_attrs o)) as [a|] eqn:G; [|reflexivity]. destruct (entry_ok_get lower false vt o _ a O G) as (T & _).
      apply dict_get_some in G as (_ & L). apply (f_equal isstr) in L. rewrite !isstr_lowv in L. rewrite (typed_isstr false _ T) in L. discriminate. }
    unfold find_key. destruct k as [s|b]; cbn [convertible] in C; destruct C as (x & X); cbn [get_strings]; rewrite X; cbn [bind fold_right].
    - cbn [to_bytes] in E. rewrite X in E. apply Ok_inj in E. subst x. rewrite N. split; [now destruct (dict_get (PBytes kb) (e_attrs o))|]. exists s. apply utf8_iff. exact X.
    - cbn [to_bytes] in E. apply Ok_inj in E. subst b. rewrite N. split; [now destruct (dict_get (PBytes kb) (e_attrs o))|]. exists x. exact X.
  Qed.
  Lemma name_conv kt k : name kt k -> convertible k.
  Proof. intros (T & _). destruct k as [s|b], kt; cbn in *; try contradiction; exact T. Qed.
  Lemma get_shows vt o kb : ent_ok lower false vt o -> name false (PBytes kb) -> (shows o (lower_bytes kb) <-> exists a, dict_get (PBytes kb) (e_attrs o) = Some a).
  Proof.
    intros (O & N) NK. rewrite Forall_forall in N. rewrite shows_attr. split.
    - intros (a & b & I & E & L). destruct (dict_get (PBytes kb) (e_attrs o)) as [a'|] eqn:G; [eauto|]. exfalso.
      apply (dict_get_none lower _ _ G a I). apply (name_low lower lower_std false (s_key a) (PBytes kb) b kb); auto.
    - intros (a & G). apply dict_get_some in G as (I & L). destruct (name_bytes false _ (N a I)) as (b & E). exists a, b. split; [exact I|]. split; [exact E|].
      apply (name_low lower lower_std false (s_key a) (PBytes kb) b kb); auto.
  Qed.

  Lemma copy_keys_ok kt vt o : ent_ok lower false vt o -> forall ks e, Forall (name kt) ks -> ent_ok lower kt vt e ->
    exists e', copy_keys lower ks o e = Ok e' /\ ent_ok lower kt vt e' /\ e_dn e' = e_dn e /\
      (forall k, named ks k -> shows o k -> forall v, octs e' k v <-> octs o k v) /\
      (forall k, ~ (named ks k /\ shows o k) -> forall v, octs e' k v <-> octs e k v).
  Proof.
    intros OO ks. induction ks as [|n ks IH]; intros e F OE.
    - exists e. cbn [copy_keys]. split; [reflexivity|]. split; [exact OE|]. split; [reflexivity|]. split; [intros k (n & b & [] & _)|tauto].
    - pose proof (Forall_inv F) as NN. apply Forall_inv_tail in F. destruct (name_bytes kt n NN) as (kb & KB).
      destruct (find_bytes_key vt o n kb (proj1 OO) KB (name_conv kt n NN)) as (FK & TK). cbn [copy_keys]. rewrite FK. cbn [bind].
      assert (NK : name false (PBytes kb)) by (split; [exact TK|discriminate]).
      destruct (dict_get (PBytes kb) (e_attrs o)) as [a|] eqn:G.
      + destruct (entry_ok_get lower false vt o _ a (proj1 OO) G) as (_ & VA & _).
        destruct (setitem_ent lower kt vt e n (s_vals a) OE NN VA) as (O1 & C1). destruct (octs_changed lower lower_std kt vt e _ n kb _ OE O1 NN KB C1) as (D1 & D2).
        destruct (IH (setitem lower n (s_vals a) e) F O1) as (e' & E & O' & DN & H1 & H2). exists e'. split; [exact E|]. split; [exact O'|]. split; [exact DN|].
        assert (SH : shows o (lower_bytes kb)) by (apply (get_shows vt); eauto).
        assert (OA : forall v, octs (setitem lower n (s_vals a) e) (lower_bytes kb) v <-> octs o (lower_bytes kb) v).
        { intros v. rewrite D2, (octs_at lower lower_std false vt o (PBytes kb) kb v OO NK eq_refl).
          assert (HG : forall w, EntrySpec.holds lower o (PBytes kb) w <-> In w (s_vals a)) by (intros w; apply (holds_get lower false vt); [exact (proj1 OO)|exact G]).
          split; intros (w & I & W); exists w; rewrite HG in *; auto. }
        split.
        * intros k NM SK v. destruct (named_dec ks k) as [N|N]; [exact (H1 k N SK v)|]. destruct NM as (m & b & [<-|I] & B & L); [|destruct N; exists m, b; auto].
          rewrite KB in B. apply Ok_inj in B. subst b k. rewrite (H2 (lower_bytes kb)) by tauto. apply OA.
        * intros k N v. rewrite (H2 k). { apply D1. intros ->. apply N. split; [exists n, kb; split; [now left|auto]|exact SH]. }
          intros ((m & b & I & B & L) & S0). apply N. split; [exists m, b; split; [now right|auto]|exact S0].
      + destruct (IH e F OE) as (e' & E & O' & DN & H1 & H2). exists e'. split; [exact E|]. split; [exact O'|]. split; [exact DN|]. split.
        * intros k NM SK v. apply H1; [|exact SK]. destruct NM as (m & b & [<-|I] & B & L); [|exists m, b; auto].
          exfalso. rewrite KB in B. apply Ok_inj in B. subst b k. apply (get_shows vt) in SK as (a & A); auto. congruence.
        * intros k N v. apply H2. intros ((m & b & I & B & L) & S0). apply N. split; [exists m, b; split; [now right|auto]|exact S0].
  Qed.

  (** *** keys and their deletion *)
  Lemma oc_low k : In k (oc_keys oc_first) -> is_oc lower k = true.
  Proof.
    intros I. unfold is_oc. assert (k = PStr (S_ "objectClass") \/ k = PBytes (B "objectClass")) as [-> | ->] by (unfold oc_keys in I; destruct oc_first; cbn [In] in I; intuition).
    - cbn [EntryModel.lowv]. rewrite (lower_oc lower lower_std). reflexivity.
    - reflexivity.
  Qed.
  Lemma is_oc_key kt k : typed kt k -> is_oc lower k = true -> exists c, In c (oc_keys oc_first) /\ lowv c = lowv k.
  Proof.
    intros T H. unfold is_oc in H. apply mem_In in H as [H|[H|[]]].
    - exists (PStr (S_ "objectClass")). split; [unfold oc_keys; destruct oc_first; cbn; auto|]. rewrite <- H. cbn [EntryModel.lowv]. now rewrite (lower_oc lower lower_std).
    - exists (PBytes (B "objectClass")). split; [unfold oc_keys; destruct oc_first; cbn; auto|]. rewrite <- H. reflexivity.
  Qed.
  Lemma keys_ok kt vt e : ent_ok lower kt vt e -> exists ks, e_keys lower oc_first e = Ok ks /\ Forall (name kt) ks /\ NoDup (map lowv ks) /\
    (forall k, In k ks -> exists a, dict_get k (e_attrs e) = Some a) /\ (forall a, In a (e_attrs e) -> exists k, In k ks /\ lowv k = lowv (s_key a)) /\
    forall k, named ks k <-> shows e k.
  Proof.
    intros ((F & ND) & N). assert (T : Forall (typed kt) (keys_of e)). { apply Forall_forall. intros k I. apply in_map_iff in I as (a & <- & I). rewrite Forall_forall in F. apply F in I. tauto. }
    destruct (sort_to_bytes_typed kt _ T) as (l & L & P). unfold e_keys. rewrite L. cbn [bind].
    set (l1 := List.filter _ (oc_keys oc_first)). set (l2 := List.filter _ l). exists (l1 ++ l2). split; [reflexivity|].
    rewrite Forall_forall in F, N.
    assert (I2 : forall k, In k l2 -> exists a, In a (e_attrs e) /\ s_key a = k /\ is_oc lower k = false).
    { intros k I. apply filter_In in I as (I & Q). apply (Permutation_in _ (Permutation_sym P)) in I. apply in_map_iff in I as (a & <- & I). exists a. split; [exact I|]. split; [reflexivity|]. now apply negb_true_iff. }
    assert (I1 : forall k, In k l1 -> is_oc lower k = true /\ exists a, dict_get k (e_attrs e) = Some a).
    { intros k I. apply filter_In in I as (I & Q). split; [now apply oc_low|]. destruct (dict_get k (e_attrs e)) as [a|]; [eauto|discriminate]. }
    assert (G2 : forall a, In a (e_attrs e) -> exists a', dict_get (s_key a) (e_attrs e) = Some a').
    { intros a I. destruct (dict_get (s_key a) (e_attrs e)) as [a'|] eqn:G; [eauto|]. destruct (dict_get_none lower _ _ G a I eq_refl). }
    assert (IN : forall k, In k (l1 ++ l2) -> exists a, dict_get k (e_attrs e) = Some a).
    { intros k I. apply in_app_or in I as [I|I]; [now apply I1|]. destruct (I2 k I) as (a & Ia & <- & _). now apply G2. }
    assert (ALL : forall a, In a (e_attrs e) -> exists k, In k (l1 ++ l2) /\ lowv k = lowv (s_key a)).
    { intros a I. destruct (is_oc lower (s_key a)) eqn:Q.
      - destruct (is_oc_key kt (s_key a) (proj1 (F a I)) Q) as (c & Ic & Lc). exists c. split; [|exact Lc]. apply in_or_app. left. apply filter_In. split; [exact Ic|].
        rewrite (dict_get_ext lower c (s_key a) _ Lc). destruct (G2 a I) as (a' & ->). reflexivity.
      - exists (s_key a). split; [|reflexivity]. apply in_or_app. right. apply filter_In. split; [|now rewrite Q]. apply (Permutation_in _ P). now apply in_map. }
    assert (NM : Forall (name kt) (l1 ++ l2)).
    { apply Forall_forall. intros k I. apply in_app_or in I as [I|I]; [|destruct (I2 k I) as (a & Ia & <- & _); now apply N].
      pose proof I as I0. apply filter_In in I0 as (I0 & _). destruct (I1 k I) as (_ & a & G). apply dict_get_some in G as (Ia & La). destruct (F a Ia) as (Ta & _).
      assert (IS : isstr k = kt). { apply (f_equal isstr) in La. rewrite !isstr_lowv in La. rewrite <- La. exact (typed_isstr kt _ Ta). }
      assert (k = PStr (S_ "objectClass") \/ k = PBytes (B "objectClass")) as [-> | ->] by (unfold oc_keys in I0; destruct oc_first; cbn [In] in I0; intuition);
        cbn [isstr] in IS; subst kt.
      + split; [eexists; vm_compute; reflexivity|]. intros s [= <-]. vm_compute. repeat (constructor; [split; [discriminate|reflexivity]|]). constructor.
      + split; [eexists; vm_compute; reflexivity|]. discriminate. }
    split; [exact NM|]. split; [|split; [exact IN|split; [exact ALL|]]].
    - rewrite map_app. apply NoDup_app_intro.
      + apply NoDup_map_filter. unfold oc_keys. destruct oc_first; cbn [map EntryModel.lowv]; (constructor; [intros [X|[]]; discriminate|constructor; [intros []|constructor]]).
      + apply NoDup_map_filter. apply (Permutation_NoDup (Permutation_map lowv P)). unfold keys_of. rewrite map_map. exact ND.
      + intros x J1 J2. apply in_map_iff in J1 as (k1 & <- & J1). apply in_map_iff in J2 as (k2 & E2 & J2). destruct (I1 k1 J1) as (Q & _). destruct (I2 k2 J2) as (_ & _ & _ & Q2).
        unfold is_oc in *. rewrite E2 in Q2. congruence.
    - intros k. rewrite shows_attr. rewrite Forall_forall in NM. split.
      + intros (n & b & I & E & Lk). destruct (IN n I) as (a & G). apply dict_get_some in G as (Ia & La). destruct (name_bytes kt _ (N a Ia)) as (b' & E'). exists a, b'.
        split; [exact Ia|]. split; [exact E'|]. rewrite <- Lk. apply (name_low lower lower_std kt (s_key a) n b' b); auto.
      + intros (a & b & Ia & E & Lk). destruct (ALL a Ia) as (n & I & Ln). destruct (name_bytes kt _ (NM n I)) as (b' & E'). exists n, b'.
        split; [exact I|]. split; [exact E'|]. rewrite <- Lk. apply (name_low lower lower_std kt n (s_key a) b' b); auto.
  Qed.
  Lemma del_keys_ok ks : forall e, NoDup (map lowv ks) -> (forall k, In k ks -> exists a, dict_get k (e_attrs e) = Some a) ->
    (forall a, In a (e_attrs e) -> exists k, In k ks /\ lowv k = lowv (s_key a)) -> del_keys lower ks e = Ok (mkEntry (e_dn e) []).
  Proof.
    induction ks as [|k ks IH]; intros e ND IN ALL.
    - cbn [del_keys]. destruct e as [d [|a l]]; [reflexivity|]. destruct (ALL a (or_introl eq_refl)) as (k & [] & _).
    - cbn [del_keys]. unfold delitem. destruct (IN k (or_introl eq_refl)) as (a & G). rewrite G. cbn [bind]. cbn [map] in ND. pose proof ND as ND0. apply NoDup_cons_iff in ND as (NI & ND).
      rewrite IH; cbn [e_dn e_attrs]; [reflexivity|exact ND| |].
      + intros k' I. destruct (IN k' (or_intror I)) as (a' & G'). pose proof G' as G0. apply dict_get_some in G' as (Ia & La).
        assert (In a' (dict_del lower k (e_attrs e))). { apply In_dict_del. split; [exact Ia|]. intros X. apply NI. rewrite <- X, La. now apply in_map. }
        destruct (dict_get k' (dict_del lower k (e_attrs e))) as [x|] eqn:G2; [eauto|]. destruct (dict_get_none lower _ _ G2 a' H). congruence.
      + intros b I. apply In_dict_del in I as (I & Nb). destruct (ALL b I) as (k' & [<-|I'] & Lk); [congruence|]. eauto.
  Qed.

  Lemma fetch_named kt o attrs c : y_journal c = [] -> y_deleted c = false -> ent_ok lower kt false (y_remote c) -> Forall (name kt) attrs -> attrs <> [] ->
    y_deleted o = false -> ent_ok lower false false (y_entry o) ->
    exists c', fetch_done lower oc_first [o] attrs c = (c', Ok tt) /\ y_dn c' = y_dn c /\ y_journal c' = [] /\ y_deleted c' = false /\ same_map (octs (y_entry c')) (octs (y_remote c')) /\
      (forall k, named attrs k -> shows (y_entry o) k -> forall v, octs (y_entry c') k v <-> octs (y_entry o) k v) /\
      (forall k, ~ (named attrs k /\ shows (y_entry o) k) -> forall v, octs (y_entry c') k v <-> octs (y_remote c) k v).
  Proof.
    intros J D R F NE DO OO. unfold fetch_done. rewrite J. destruct attrs as [|n attrs]; [congruence|]. unfold check at 1. rewrite DO. cbn [bind].
    destruct (copy_keys_ok kt false (y_entry o) OO (n :: attrs) (y_remote c) F R) as (e' & -> & O' & DN & H1 & H2).
    destruct (undo_step lower oc_first lower_std kt false (mkCent (y_entry c) e' [] (y_deleted c)) O' D) as (c' & U & _ & DN' & RM & DE & JO & H). cbn [y_remote] in *.
    exists c'. split; [exact U|]. split; [exact DN'|]. split; [exact JO|]. split; [exact DE|]. split; [intros k v; rewrite RM; apply H|]. split.
    - intros k N S0 v. rewrite H. now apply H1.
    - intros k N v. rewrite H. now apply H2.
  Qed.
  Lemma fetch_all kt vt o c : y_journal c = [] -> y_deleted c = false -> ent_ok lower kt vt (y_remote c) -> y_deleted o = false -> ent_ok lower false false (y_entry o) ->
    exists c', fetch_done lower oc_first [o] [] c = (c', Ok tt) /\ y_dn c' = y_dn c /\ y_journal c' = [] /\ y_deleted c' = false /\ same_map (octs (y_entry c')) (octs (y_remote c')) /\
      same_map (octs (y_entry c')) (octs (y_entry o)).
  Proof.
    intros J D R DO OO. unfold fetch_done. rewrite J. destruct (keys_ok kt vt (y_remote c) R) as (ks & -> & _ & ND & IN & ALL & _). cbn [bind]. rewrite (del_keys_ok ks (y_remote c) ND IN ALL). cbn [bind].
    unfold check at 1 2. rewrite DO. cbn [bind]. destruct (keys_ok false false (y_entry o) OO) as (ks' & -> & NM & _ & _ & _ & SH). cbn [bind].
    set (e0 := mkEntry (e_dn (y_remote c)) []). assert (OE : ent_ok lower false false e0) by (split; [split; constructor|constructor]).
    destruct (copy_keys_ok false false (y_entry o) OO ks' e0 NM OE) as (e' & -> & O' & DN & H1 & H2).
    destruct (undo_step lower oc_first lower_std false false (mkCent (y_entry c) e' [] (y_deleted c)) O' D) as (c' & U & _ & DN' & RM & DE & JO & H). cbn [y_remote] in *.
    exists c'. split; [exact U|]. split; [exact DN'|]. split; [exact JO|]. split; [exact DE|]. split; [intros k v; rewrite RM; apply H|].
    intros k v. rewrite H. destruct (named_dec ks' k) as [N|N]; [apply H1; [exact N|now apply SH]|]. rewrite H2 by tauto. split.
    - intros (a & kb & [] & _).
    - intros X. destruct N. apply SH. exact (octs_shows _ _ _ X).
  Qed.

  (** *** The search behind it *)
  Lemma search_raw lax rs : Forall (search_part io) rs ->
    exists cs, Forall2 (fun r c => match r with SearchEntry dn ats => exists d, c = new_cent lower d (map (fun kv => (PBytes (fst kv), map PBytes (snd kv))) ats) | _ => False end) (List.filter is_entry rs) cs /\
      forall rest s, search_run lower io lax (map response_obj rs ++ rest) s = search_run lower io lax rest (mkSres (q_found s ++ cs) (q_end s)).
  Proof.
    induction rs as [|r rs IH]; intros F.
    - exists []. split; [constructor|]. intros rest s. rewrite app_nil_r. destruct s. reflexivity.
    - pose proof (Forall_inv F) as P. apply Forall_inv_tail in F. destruct (IH F) as (cs & F2 & H). destruct r as [| dn ats | | us | | | | | | ]; try contradiction.
      + destruct P as ((t & d & T & P) & N). set (c := new_cent lower d (map (fun kv => (PBytes (fst kv), map PBytes (snd kv))) ats)).
        assert (E : search_entry lower io (VBytes dn) (map (fun a => (VBytes (fst a), map VBytes (snd a))) ats) = Ok c).
        { unfold search_entry. rewrite (attrib_nodup ats [] N). cbn [bind app to_dn]. rewrite T. cbn [bind]. rewrite P. reflexivity. }
        exists (c :: cs). split; [constructor; [exists d; reflexivity|exact F2]|]. intros rest s. cbn [map app search_run search_msg response_obj]. rewrite E, H. cbn [q_found q_end]. now rewrite <- app_assoc.
      + exists cs. split; [exact F2|]. intros rest s. cbn [map app search_run search_msg response_obj]. apply H.
  Qed.
  Lemma sent_ent d ats : all_text ats -> ent_ok lower false false (new_entry lower d (map (fun kv => (PBytes (fst kv), map PBytes (snd kv))) ats)).
  Proof.
    intros T. apply new_entry_ent. intros k vs I. apply in_map_iff in I as ((k0 & vs0) & E & I). cbn [fst snd] in E. injection E as <- <-. destruct (T k0 vs0 I) as (K & V). split.
    - split; [exact K|discriminate].
    - apply Forall_forall. intros v J. apply in_map_iff in J as (b & <- & J). exact (V b J).
  Qed.
  Lemma sent_shows d ats k : all_text ats -> (shows (new_entry lower d (map (fun kv => (PBytes (fst kv), map PBytes (snd kv))) ats)) k <-> sent_name ats k).
  Proof.
    intros T. set (its := map _ ats). pose proof (sent_ent d ats T) as (_ & N). fold its in N. rewrite Forall_forall in N.
    assert (SP := fun kk vv => proj1 (new_entry_spec lower d its kk vv)). rewrite shows_attr. split.
    - intros (a & b & I & E & L). assert (HH : EntrySpec.has lower (new_entry lower d its) (s_key a)) by (exists a; auto). apply (SP _ (PStr [])) in HH as (k' & vs & I' & L').
      apply in_map_iff in I' as ((k0 & vs0) & [= <- <-] & I'). exists k0, vs0. split; [exact I'|]. destruct (s_key a) as [s|b0]; cbn [EntryModel.lowv] in L'; [discriminate|].
      apply Ok_inj in E. injection L' as L'. congruence.
    - intros (k' & vs & I & L). assert (HH : EntrySpec.has lower (new_entry lower d its) (PBytes k')).
      { apply (SP _ (PStr [])). exists (PBytes k'), (map PBytes vs). split; [|reflexivity]. apply in_map_iff. exists (k', vs). auto. }
      destruct HH as (a & I' & L'). exists a. destruct (s_key a) as [s|b0]; cbn [EntryModel.lowv] in L'; [discriminate|]. injection L' as L'. exists b0. split; [exact I'|]. split; [reflexivity|congruence].
  Qed.

  (** *** Reading *)
  Lemma find_names k e o : find_key lower k e = Ok o ->
    match o with
    | Some a => In a (e_attrs e) /\ exists k', spells k k' /\ lowv (s_key a) = lowv k'
    | None => forall a k', In a (e_attrs e) -> spells k k' -> lowv (s_key a) <> lowv k'
    end.
  Proof.
    intros H. unfold find_key in H. apply bind_ok in H as (fs & G & H). apply Ok_inj in H.
    assert (C : exists s b, utf8_decode b = Ok s /\ utf8_encode s = Ok b /\ (fs = [PBytes b; PStr s] /\ k = PBytes b \/ fs = [PStr s; PBytes b] /\ k = PStr s)).
    { destruct k as [s|b]; cbn [get_strings] in G; apply bind_ok in G as (x & X & G); apply Ok_inj in G.
      - exists s, x. split; [now apply utf8_iff|]. split; [exact X|]. right. auto.
      - exists x, b. split; [exact X|]. split; [now apply utf8_iff|]. left. auto. }
    destruct C as (s & b & D & E & C).
    assert (SP : forall k', spells k k' <-> k' = PStr s \/ k' = PBytes b).
    { assert (TB : to_bytes k = Ok b) by (destruct C as [(_ & ->)|(_ & ->)]; [reflexivity|exact E]). intros k'. unfold spells. split.
      - intros (b0 & B1 & B2). rewrite TB in B1. apply Ok_inj in B1. subst b0. destruct k' as [s'|b']; cbn [to_bytes] in B2.
        + left. apply utf8_iff in B2. rewrite D in B2. apply Ok_inj in B2. now subst.
        + right. apply Ok_inj in B2. now subst.
      - intros [-> | ->]; exists b; cbn [to_bytes]; auto. }
    assert (FS : forall k', In k' fs <-> spells k k') by (intros k'; rewrite SP; destruct C as [(-> & _)|(-> & _)]; cbn [In]; intuition congruence).
    clear C SP.
    assert (GEN : forall l (o : option aset), fold_right (fun f acc => match dict_get f (e_attrs e) with Some a => Some a | None => acc end) None l = o ->
        match o with Some a => exists k', In k' l /\ dict_get k' (e_attrs e) = Some a | None => forall k', In k' l -> dict_get k' (e_attrs e) = None end).
    { clear. induction l as [|x l IH]; intros o H; cbn [fold_right] in H; [subst o; intros k' []|]. destruct (dict_get x (e_attrs e)) as [a|] eqn:G.
      - subst o. exists x. split; [now left|exact G].
      - specialize (IH o H). destruct o as [a|].
        + destruct IH as (k' & I & J). exists k'. split; [now right|exact J].
        + intros k' [<-|I]; [exact G|auto]. }
    specialize (GEN _ _ H). destruct o as [a|].
    - destruct GEN as (k' & I & G'). apply dict_get_some in G' as (IA & L). split; [exact IA|]. exists k'. split; [now apply FS|exact L].
    - intros a k' IA S. apply FS in S. exact (dict_get_none lower _ _ (GEN _ S) a IA).
  Qed.
  Lemma reads kt vt net c : y_deleted c = false -> ent_ok lower kt vt (y_entry c) ->
    (forall k, convertible k -> exists o, run_call lower oc_first net (KGetItem k) c = (c, [], match o with Some a => Ok (XSet a) | None => Err EKey end) /\
       run_call lower oc_first net (KGet k) c = (c, [], Ok (XGet (option_map s_vals o))) /\
       run_call lower oc_first net (KHas k) c = (c, [], Ok (XBool (match o with Some _ => true | None => false end))) /\
       match o with
       | Some a => In a (e_attrs (y_entry c)) /\ exists k', spells k k' /\ lowv (s_key a) = lowv k'
       | None => forall a k', In a (e_attrs (y_entry c)) -> spells k k' -> lowv (s_key a) <> lowv k'
       end) /\
    (exists ks, run_call lower oc_first net KKeys c = (c, [], Ok (XKeys ks)) /\ run_call lower oc_first net KLen c = (c, [], Ok (XNum (length ks))) /\
       NoDup (map lowv ks) /\ (forall k, In k (map lowv ks) <-> In k (map (fun a => lowv (s_key a)) (e_attrs (y_entry c))))) /\
    exists l, run_call lower oc_first net KItems c = (c, [], Ok (XItems l)) /\
       forall k v, holds lower (y_entry c) k v <-> exists k' vs, In (k', vs) l /\ lowv k' = lowv k /\ In v vs.
  Proof.
    intros D O. assert (C : check c = Ok tt) by (unfold check; now rewrite D). cbn [run_call]. unfold pure. rewrite C. cbn [bind]. split; [|split].
    - intros k CV. assert (F : exists o, find_key lower k (y_entry c) = Ok o).
      { unfold find_key. destruct k as [s|b]; destruct CV as (x & X); cbn [get_strings]; rewrite X; cbn [bind]; eauto. }
      destruct F as (o & F). exists o. unfold getitem, has_key. rewrite F. cbn [bind]. split; [destruct o; reflexivity|]. split; [reflexivity|]. split; [reflexivity|]. exact (find_names k _ o F).
    - destruct (keys_ok kt vt _ O) as (ks & E & _ & ND & S1 & S2 & _). exists ks. rewrite E. cbn [bind]. split; [reflexivity|]. split; [reflexivity|]. split; [exact ND|]. intros k. split.
      + intros I. apply in_map_iff in I as (n & <- & I). destruct (S1 n I) as (a & G). apply dict_get_some in G as (IA & L). rewrite <- L. now apply (in_map (fun a => lowv (s_key a))).
      + intros I. apply in_map_iff in I as (a & <- & I). destruct (S2 a I) as (n & IN & L). rewrite <- L. now apply in_map.
    - destruct (items_total lower oc_first kt vt (y_entry c) (proj1 O)) as (l & E). exists l. rewrite E. cbn [bind]. split; [reflexivity|]. exact (items_all lower oc_first lower_std kt vt _ l O E).
  Qed.

  (** *** Everything: fetch, the responses, the entry *)
  Lemma fetch_sends attrs net c l r : c_fetch attrs net c = (l, Ok r) ->
    y_journal c = [] /\ exists b ns, utf8_encode (dn_text (y_dn c)) = Ok b /\ Forall2 (fun n x => to_bytes n = Ok x) attrs ns /\
      l = [request_obj (Search b 0 0 0 0 false (FPresent (B "objectClass")) ns)].
  Proof.
    unfold c_fetch. destruct (check c) as [u|] eqn:C; [|discriminate]. destruct (y_journal c); [|discriminate]. destruct (mapR to_bytes attrs) as [ns|] eqn:M; [|discriminate].
    unfold c_search. rewrite C. cbn [bind]. unfold text_pv. destruct (utf8_encode (dn_text (y_dn c))) as [b|]; cbn [bind]; [|discriminate]. unfold send. destruct net; [discriminate|].
    intros [= <- <-]. split; [reflexivity|]. exists b, ns. split; [reflexivity|]. split; [now apply mapR_Forall2|reflexivity].
  Qed.
  Lemma fetch_result lax rs dn ats res extra : Forall (search_part io) rs -> List.filter is_entry rs = [SearchEntry dn ats] -> all_text ats -> r_code res = 0 -> r_dn res = [] ->
    exists o, search_run lower io lax (map response_obj rs ++ response_obj (SearchDone res) :: extra) (mkSres [] None) = mkSres [o] (Some (Ok tt)) /\
    forall c, y_journal c = [] -> y_deleted c = false ->
     (forall kt vt, ent_ok lower kt vt (y_remote c) ->
        exists c', fetch_done lower oc_first [o] [] c = (c', Ok tt) /\ y_dn c' = y_dn c /\ y_journal c' = [] /\ y_deleted c' = false /\ same_map (octs (y_entry c')) (octs (y_remote c')) /\
          same_map (octs (y_entry c')) (sent ats)) /\
     (forall kt attrs, ent_ok lower kt false (y_remote c) -> Forall (name kt) attrs -> attrs <> [] ->
        exists c', fetch_done lower oc_first [o] attrs c = (c', Ok tt) /\ y_dn c' = y_dn c /\ y_journal c' = [] /\ y_deleted c' = false /\ same_map (octs (y_entry c')) (octs (y_remote c')) /\
          (forall k, named attrs k -> sent_name ats k -> forall v, octs (y_entry c') k v <-> sent ats k v) /\
          (forall k, ~ (named attrs k /\ sent_name ats k) -> forall v, octs (y_entry c') k v <-> octs (y_remote c) k v)).
  Proof.
    intros F E T C D. destruct (search_raw lax rs F) as (cs & F2 & H). rewrite E in F2. inversion F2 as [|x o l1 l2 P0 F3 X1 X2]; subst x l1 cs. inversion F3; subst l2. clear F2 F3. destruct P0 as (d & OE).
    exists o. split.
    { rewrite H. cbn [search_run search_msg response_obj result_obj q_found q_end app]. rewrite C, D. reflexivity. }
    assert (EO : y_entry o = new_entry lower d (map (fun kv => (PBytes (fst kv), map PBytes (snd kv))) ats)) by (subst o; reflexivity).
    assert (DO : y_deleted o = false) by (subst o; reflexivity).
    assert (OO : ent_ok lower false false (y_entry o)) by (rewrite EO; now apply sent_ent). clear OE.
    assert (SO : forall k v, octs (y_entry o) k v <-> sent ats k v) by (intros k v; rewrite EO; apply octs_new).
    assert (SN : forall k, shows (y_entry o) k <-> sent_name ats k) by (intros k; rewrite EO; now apply sent_shows).
    intros c J DC. split.
    - intros kt vt R. destruct (fetch_all kt vt o c J DC R DO OO) as (c' & U & DN & JO & DE & SM & S2). exists c'. split; [exact U|]. split; [exact DN|]. split; [exact JO|]. split; [exact DE|].
      split; [exact SM|]. intros k v. rewrite (S2 k v). apply SO.
    - intros kt attrs R NA NE. destruct (fetch_named kt o attrs c J DC R NA NE DO OO) as (c' & U & DN & JO & DE & SM & H1 & H2). exists c'. split; [exact U|]. split; [exact DN|]. split; [exact JO|]. split; [exact DE|].
      split; [exact SM|]. split.
      + intros k N S0 v. rewrite (H1 k N (proj2 (SN k) S0) v). apply SO.
      + intros k N v. apply H2. rewrite SN. exact N.
  Qed.

  (** *** Answers *)
  Lemma plain_answer x : r_dn x = [] ->
    (delete_done (response_obj (DeleteResponse x)) = if r_code x =? 0 then Ok tt else Err (ELdap (r_code x))) /\
    (forall nm v, set_password_done (response_obj (ExtendedResponse x nm v)) = if r_code x =? 0 then Ok tt else Err (ELdap (r_code x))) /\
    (forall rd c, add_done lower rd (response_obj (AddResponse x)) c = if r_code x =? 0 then Ok (new_cent lower (rd :: y_dn c) []) else Err (ELdap (r_code x))).
  Proof.
    intros D. unfold delete_done, set_password_done, add_done, good_result. cbn [response_obj result_obj]. rewrite D.
    destruct (cls_dec KAddResp KAddResp) as [_|N]; [|contradiction].
    destruct (r_code x) as [|p|p]; (split; [reflexivity|split; [intros nm v; reflexivity|intros rd c; reflexivity]]).
  Qed.

  Lemma samba_sends (old : bool) nt lm net c c' l r : c_samba lower old nt lm net c = (c', l, Ok r) ->
    exists b ms nb lb, utf8_encode (dn_text (y_dn c)) = Ok b /\ to_bytes nt = Ok nb /\ to_bytes lm = Ok lb /\ length ms = length (y_journal c) /\
      l = [request_obj (Modify b (ms ++ [mkMod 2 (if old then B "ntPassword" else B "sambaNTPassword") [nb]; mkMod 2 (if old then B "lmPassword" else B "sambaLMPassword") [lb]]))] /\
      (forall m, In m (y_journal c) -> exists o, l = [o] /\ carries o m).
  Proof.
    unfold c_samba. destruct (check c) as [u|x] eqn:CK; [|discriminate].
    destruct (c_setitem lower (PStr (S_ (if old then "ntPassword" else "sambaNTPassword"))) (Listed [nt]) c) as (c1 & [u1|x1]) eqn:S1; [|discriminate].
    destruct (c_setitem lower (PStr (S_ (if old then "lmPassword" else "sambaLMPassword"))) (Listed [lm]) c1) as (c2 & [u2|x2]) eqn:S2; [|discriminate].
    destruct (c_commit net c2) as (l0 & r0) eqn:CC. intros [= <- -> ->].
    unfold c_setitem in S1. destruct (do _ <- check c; can_remove_all _ c) as [v1|y1]; [|discriminate]. cbn [read1 read2] in S1. injection S1 as <- _.
    unfold c_setitem in S2. destruct (do _ <- check _; can_remove_all _ _) as [v2|y2]; [|discriminate]. cbn [read1 read2] in S2. injection S2 as <- _.
    match type of CC with c_commit net ?z = _ => set (c2 := z) in * end.
    assert (J : y_journal c2 = y_journal c ++ [new_delta MReplace (PStr (S_ (if old then "ntPassword" else "sambaNTPassword"))) [nt];
        new_delta MReplace (PStr (S_ (if old then "lmPassword" else "sambaLMPassword"))) [lm]]).
    { unfold c2, journal, with_entry. cbn [y_journal]. rewrite <- app_assoc. reflexivity. }
    pose proof (commit_carries net c2 l (Ok r)) as CR. specialize (fun m => CR m CC).
    unfold c_commit in CC. destruct (check c2); [|discriminate]. rewrite J in CC.
    destruct (y_journal c ++ _) as [|j js] eqn:JE; [destruct (y_journal c); discriminate|].
    destruct (as_ldap (y_dn c2) (j :: js)) as [o|] eqn:A; [|discriminate]. destruct net; [discriminate|]. injection CC as <- _.
    destruct (as_ldap_sends _ _ _ A) as (b & ms & T & F & ->). rewrite <- JE in F. apply Forall2_app_inv_l in F as (ms1 & ms2 & F1 & F2 & ->).
    inversion F2 as [|? x1 ? ms3 (k1 & b1 & K1 & V1 & E1) F3]; subst. inversion F3 as [|? x2 ? ms4 (k2 & b2 & K2 & V2 & E2) F4]; subst. inversion F4; subst.
    cbn [new_delta d_key d_vals d_kind] in *. replace (set_of [nt]) with [nt] in V1 by reflexivity. replace (set_of [lm]) with [lm] in V2 by reflexivity. cbn [mapR] in V1, V2.
    destruct (to_bytes nt) as [nb|]; cbn [bind] in V1; [|discriminate]. destruct (to_bytes lm) as [lb|]; cbn [bind] in V2; [|discriminate]. apply Ok_inj in V1, V2. subst b1 b2.
    exists b, ms1, nb, lb. split; [exact T|]. split; [reflexivity|]. split; [reflexivity|]. split; [clear - F1; induction F1; cbn [length]; congruence|]. split.
    - destruct old; vm_compute in K1, K2; apply Ok_inj in K1, K2; subst k1 k2; reflexivity.
    - intros m I. destruct (CR m) as [X|X]; [rewrite J, <- JE; apply in_or_app; now left|discriminate|exact X].
  Qed.
End Fetch.
