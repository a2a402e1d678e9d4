(** C98: ldifdiff and ldifpatch. *)
From Verif Require Import Base BaseFacts Utf8Model Utf8Proofs DnModel DnSpec DnProofs EntryModel EntrySpec EntryProofs LdapSpec MatchModel LdifSpec LdifRound
  InmemModel InmemSpec InmemProofs InmemMove TreeDiffModel LoadModel LoadSpec ServerModel DiffToolSpec PropsEntry PropsInmem PropsLdif PropsTreeDiff PropsLoad LdifModel DiffToolModel DiffToolMain.

(** C98. For any two files whose entries are in order, of one root, with names and values that are
    texts, RDNs in lower case, and attributes spelled the same in entries of the same name, whose
    second file has no entry without attributes: ldifdiff writes a patch and ends well; given that
    patch and the first file, ldifpatch ends well; what it writes is loaded as a directory with
    exactly the entries of the second file, each saying the same. Lines of what is written are to be
    within the line limit of the parser. Missing: the scripts open their files as text
    ([C98_scripts_refuted]), attributes spelled differently ([C98_spelling_refuted]), values that are
    not texts ([C98_octets_refuted]). *)
Theorem C98_diff_patch_partial : forall (lower : str -> str) (io : Z -> Z -> res Z) (vio : str -> res Z) (oc : bool)
    (hash_pair : str * str -> Z) (hash_tuple : list Z -> Z) (depth : nat) (tA tB : bytes) (esA esB : list entry),
  LdifSpec.lower_oc lower ->
  parse lower io vio false [tA] = (map REntry esA, Ok tt) -> parse lower io vio false [tB] = (map REntry esB, Ok tt) ->
  esA <> [] -> esB <> [] -> same_dn lower (e_dn (hd (mkEntry [] []) esA)) (e_dn (hd (mkEntry [] []) esB)) ->
  in_order lower esA -> in_order lower esB -> rdns_ok (canonical lower) depth esA -> rdns_ok (canonical lower) depth esB ->
  Forall plain_entry esA -> Forall plain_entry esB -> (forall e, In e esB -> e_attrs e <> []) -> one_spelling lower esA esB ->
  exists p, ldifdiff lower io vio oc hash_pair hash_tuple depth tA tB = (p, Exit0) /\
    (short_lines p -> exists t, ldifpatch lower io vio oc depth tA p = (t, Exit0) /\
      (short_lines t -> exists h L, fromLDIFFile lower io vio oc depth t = LDone h /\ tree h L /\ is_directory lower depth h esB)).
Proof. intros. now apply diff_then_patch with (esA := esA). Qed.
Print Assumptions C98_diff_patch_partial.

(** ** An example *)
Section Decide.
  Definition textyb (b : bytes) : bool := match utf8_decode b with Ok _ => true | Err _ => false end.
  Definition lacks (cs : list Z) (b : bytes) : bool := forallb (fun x => negb (existsb (Z.eqb (b2z x)) cs)) b.
  Definition name_okb (k : bytes) : bool := lacks [10; 13; 58] k && match k with x :: _ => lacks [32; 35] [x] | [] => true end.
  Definition scalarb (s : str) : bool := forallb (fun c => (0 <=? c) && (c <? 0xD800)) s.
  Definition dn_okb (d : dn) : bool := forallb (fun rd => match rd with [] => false | _ => forallb (fun a => scalarb (a_type a) && negb (existsb (Z.eqb 61) (a_type a)) && scalarb (a_value a)) rd end) d.
  Definition bytesb (f : bytes -> bool) (v : pyval) : bool := match v with PBytes b => f b | PStr _ => false end.
  Definition plainb (e : entry) : bool :=
    dn_okb (e_dn e) && forallb (fun a => bytesb (fun k => textyb k && name_okb k) (s_key a) && forallb (bytesb textyb) (s_vals a)) (e_attrs e).
  Definition spelledb (es fs : list entry) : bool :=
    forallb (fun e => forallb (fun f => negb (dn_eqb ascii_lower (e_dn e) (e_dn f)) || forallb (fun a => forallb (fun b =>
      negb (pyval_eqb (lowv ascii_lower (s_key a)) (lowv ascii_lower (s_key b))) || pyval_eqb (s_key a) (s_key b)) (e_attrs f)) (e_attrs e)) fs) es.
  Definition canonb (rd : rdn) : bool :=
    match rd with [] => false | _ => forallb (fun a => forallb (fun c => (97 <=? c) && (c <=? 122)) (a_type a) && forallb (fun c => (97 <=? c) && (c <=? 122)) (a_value a) &&
      match a_type a, a_value a with [], _ | _, [] => false | _, _ => true end) rd end.

  Lemma textyb_ok b : textyb b = true -> texty b.
  Proof. unfold textyb, texty. destruct (utf8_decode b); [eauto|discriminate]. Qed.
  Lemma lacks_ok cs c b : lacks cs b = true -> In c cs -> without c b.
  Proof.
    unfold lacks. rewrite forallb_forall. intros H I x J E. specialize (H x J). apply Bool.negb_true_iff in H. assert (Q : existsb (Z.eqb (b2z x)) cs = true); [|congruence].
    apply existsb_exists. exists c. split; [exact I|now apply Z.eqb_eq].
  Qed.
  Lemma name_okb_ok k : name_okb k = true -> name_ok k /\ without 13 k.
  Proof.
    unfold name_okb. intros H. apply Bool.andb_true_iff in H as (H1 & H2).
    assert (NF : forall c, In c [32; 35] -> not_first c k).
    { intros c I x r ->. exact (lacks_ok _ c [x] H2 I x (or_introl eq_refl)). }
    split; [|apply (lacks_ok _ 13 k H1); cbn; tauto]. split; [apply (lacks_ok _ 10 k H1); cbn; tauto|]. split; [apply (lacks_ok _ 58 k H1); cbn; tauto|].
    split; apply NF; cbn; tauto.
  Qed.
  Lemma scalarb_ok s : scalarb s = true -> scalar s.
  Proof. unfold scalarb, scalar. rewrite forallb_forall. intros H. apply Forall_forall. intros c I. specialize (H c I). lia. Qed.
  Lemma dn_okb_ok d : dn_okb d = true -> ldif_dn_ok d.
  Proof.
    unfold dn_okb. rewrite forallb_forall. intros H. split.
    - apply Forall_forall. intros rd I. apply Forall_forall. intros a J. specialize (H rd I). destruct rd as [|a0 rd]; [discriminate|]. rewrite forallb_forall in H. specialize (H a J).
      apply Bool.andb_true_iff in H as (H & H3). apply Bool.andb_true_iff in H as (H1 & H2). split; [now apply scalarb_ok|]. split; [|now apply scalarb_ok].
      intros Q. apply Bool.negb_true_iff in H2. assert (X : existsb (Z.eqb 61) (a_type a) = true); [|congruence]. apply existsb_exists. exists 61. split; [exact Q|reflexivity].
    - intros ->. specialize (H [] (or_introl eq_refl)). discriminate.
  Qed.
  Lemma plainb_ok e : plainb e = true -> plain_entry e.
  Proof.
    unfold plainb. intros H. apply Bool.andb_true_iff in H as (H1 & H2). split; [now apply dn_okb_ok|]. intros a I. rewrite forallb_forall in H2. specialize (H2 a I).
    apply Bool.andb_true_iff in H2 as (K & V). split.
    - intros k E. rewrite E in K. cbn [bytesb] in K. apply Bool.andb_true_iff in K as (K1 & K2). split; [now apply textyb_ok|now apply name_okb_ok].
    - intros b J. rewrite forallb_forall in V. exact (textyb_ok b (V _ J)).
  Qed.
  Lemma spelledb_ok es fs : spelledb es fs = true -> one_spelling ascii_lower es fs.
  Proof.
    unfold spelledb. rewrite forallb_forall. intros H e f a b Ie If S Ia Ib L. specialize (H e Ie). rewrite forallb_forall in H. specialize (H f If).
    apply dn_eqb_spec in S. rewrite S in H. cbn [negb orb] in H. rewrite forallb_forall in H. specialize (H a Ia). rewrite forallb_forall in H. specialize (H b Ib).
    destruct (pyval_eqb_spec (lowv ascii_lower (s_key a)) (lowv ascii_lower (s_key b))) as [_|N]; [|congruence]. cbn [negb orb] in H.
    now destruct (pyval_eqb_spec (s_key a) (s_key b)).
  Qed.
  Lemma small_lower s : forallb (fun c => (97 <=? c) && (c <=? 122)) s = true -> ascii_lower s = s.
  Proof.
    induction s as [|c s IH]; [reflexivity|]. cbn [forallb]. intros H. apply Bool.andb_true_iff in H as (H & H'). unfold ascii_lower in *. cbn [map]. rewrite (IH H').
    replace ((65 <=? c) && (c <=? 90)) with false by lia. reflexivity.
  Qed.
  Lemma canonb_ok rd : canonb rd = true -> canonical ascii_lower rd.
  Proof.
    intros H. destruct rd as [|a0 rd0]; [discriminate|]. unfold canonb in H. set (rd := a0 :: rd0) in *. rewrite forallb_forall in H.
    assert (T : forall s, forallb (fun c => (97 <=? c) && (c <=? 122)) s = true -> text s /\ ~ In 61 s).
    { intros s Q. rewrite forallb_forall in Q. split; [|intros I; specialize (Q _ I); lia]. unfold text. apply Forall_forall. intros c I. specialize (Q c I). lia. }
    split; [|split; [discriminate|]]; apply Forall_forall; intros a I; specialize (H a I); apply Bool.andb_true_iff in H as (H & _); apply Bool.andb_true_iff in H as (H1 & H2).
    - split; [apply (T _ H1)|]. split; [apply (T _ H1)|apply (T _ H2)].
    - split; now apply small_lower.
  Qed.
  Definition rdnsb (depth : nat) (es : list entry) : bool :=
    forallb (fun e => Nat.ltb (length (e_dn e)) depth) es && forallb (fun e => match e_dn e with rd :: _ => canonb rd | [] => true end) (tl es).
  Lemma rdnsb_ok depth es : rdnsb depth es = true -> rdns_ok (canonical ascii_lower) depth es.
  Proof.
    unfold rdnsb. intros H. apply Bool.andb_true_iff in H as (H1 & H2). rewrite forallb_forall in H1, H2. split.
    - intros e I. apply Nat.ltb_lt. now apply H1.
    - intros e rd p I E. specialize (H2 e I). rewrite E in H2. now apply canonb_ok.
  Qed.
End Decide.

Definition dt_a : bytes := ld_text ["version: 1"; "dn: dc=com"; "dc: com"; "objectclass: domain"; "objectClass: top"; "";
  "dn: ou=a,dc=com"; "ou: a"; "description: old"; ""; "dn: cn=x,OU=A,dc=com"; "cn: x"; "CN: y"; ""]%string.
Definition dt_b : bytes := ld_text ["version: 1"; "dn: DC=com"; "dc: com"; "objectclass: domain"; ""; "dn: ou=a,dc=com"; "ou: a"; "description: new"; "mail: a@b"; "";
  "dn: ou=b,dc=com"; "ou: b"; ""; "dn: cn=z,ou=b,dc=com"; "cn: z"; ""]%string.
(** The patch that ldifdiff writes for them, and what ldifpatch makes of the first file with it. *)
Definition dt_p : bytes := ld_text ["version: 1"; ""; "dn: dc=com"; "changetype: modify"; "delete: objectClass"; "objectClass: top"; "-"; "";
  "dn: ou=a,dc=com"; "changetype: modify"; "add: mail"; "mail: a@b"; "-"; "add: description"; "description: new"; "-"; "delete: description"; "description: old"; "-"; "";
  "dn: cn=x,ou=a,dc=com"; "changetype: delete"; ""; "dn: ou=b,DC=com"; "changetype: add"; "ou: b"; ""; "dn: cn=z,ou=b,DC=com"; "changetype: add"; "cn: z"; ""]%string.
Definition dt_c : bytes := ld_text ["version: 1"; ""; "dn: dc=com"; "objectClass: domain"; "dc: com"; ""; "dn: ou=b,dc=com"; "ou: b"; ""; "dn: cn=z,ou=b,dc=com"; "cn: z"; "";
  "dn: ou=a,dc=com"; "description: new"; "mail: a@b"; "ou: a"; ""]%string.
Definition dt_diff (a b : bytes) : bytes * ending := ldifdiff ascii_lower lx_io lx_vio true x_hp x_ht x_depth a b.
Definition dt_patch (a p : bytes) : bytes * ending := ldifpatch ascii_lower lx_io lx_vio true x_depth a p.
Lemma short_all t : zlen t <= 16384 -> short_lines t.
Proof. intros H a l b -> _. unfold zlen in *. rewrite !app_length in H. lia. Qed.

Example C98_case :
  (let esA := ld_entries dt_a in let esB := ld_entries dt_b in
   parse ascii_lower lx_io lx_vio false [dt_a] = (map REntry esA, Ok tt) /\ parse ascii_lower lx_io lx_vio false [dt_b] = (map REntry esB, Ok tt) /\
   esA <> [] /\ esB <> [] /\ same_dn ascii_lower (e_dn (hd (mkEntry [] []) esA)) (e_dn (hd (mkEntry [] []) esB)) /\
   in_order ascii_lower esA /\ in_order ascii_lower esB /\ rdns_ok (canonical ascii_lower) x_depth esA /\ rdns_ok (canonical ascii_lower) x_depth esB /\
   Forall plain_entry esA /\ Forall plain_entry esB /\ (forall e, In e esB -> e_attrs e <> []) /\ one_spelling ascii_lower esA esB) /\
  dt_diff dt_a dt_b = (dt_p, Exit0) /\ short_lines dt_p /\ dt_patch dt_a dt_p = (dt_c, Exit0) /\ short_lines dt_c.
Proof.
  split; [|split; [vm_compute; reflexivity|split; [apply short_all; vm_compute; discriminate|split; [vm_compute; reflexivity|apply short_all; vm_compute; discriminate]]]].
  intros esA esB. split; [vm_compute; reflexivity|]. split; [vm_compute; reflexivity|].
  split; [vm_compute; discriminate|]. split; [vm_compute; discriminate|]. split; [apply dn_eqb_spec; vm_compute; reflexivity|].
  split; [apply in_orderb; vm_compute; reflexivity|]. split; [apply in_orderb; vm_compute; reflexivity|].
  split; [apply rdnsb_ok; vm_compute; reflexivity|]. split; [apply rdnsb_ok; vm_compute; reflexivity|].
  assert (PA : forallb plainb esA = true) by (vm_compute; reflexivity). assert (PB : forallb plainb esB = true) by (vm_compute; reflexivity).
  assert (FB : forallb (fun e => match e_attrs e with [] => false | _ => true end) esB = true) by (vm_compute; reflexivity).
  rewrite forallb_forall in PA, PB, FB.
  split; [apply Forall_forall; intros e I; apply plainb_ok, PA, I|]. split; [apply Forall_forall; intros e I; apply plainb_ok, PB, I|].
  split; [|apply spelledb_ok; vm_compute; reflexivity]. intros e I Q. specialize (FB e I). cbv beta in FB. rewrite Q in FB. discriminate.
Qed.

(** ** What is left out is false *)
(** The scripts open their files as text: whatever the files are, both end with an exception before
    anything is written, TypeError unless the first file is empty. *)
Theorem C98_scripts_refuted : forall (lower : str -> str) (io : Z -> Z -> res Z) (vio : str -> res Z) (oc : bool)
    (hash_pair : str * str -> Z) (hash_tuple : list Z -> Z) (depth : nat) (file1 file2 : str),
  exists x, ldifdiff_text lower io vio oc hash_pair hash_tuple depth file1 file2 = ([], Raises x) /\
    ldifpatch_text lower io vio oc depth file1 file2 = ([], Raises x) /\ (file1 <> [] -> x = EType) /\ (file1 = [] -> x = ETruncated).
Proof.
  intros lower io vio oc hp ht depth [|c f1] f2; unfold ldifdiff_text, ldifpatch_text, fromTextFile; eexists; (split; [reflexivity|]); (split; [reflexivity|]); split; intros N; (congruence || reflexivity).
Qed.
Print Assumptions C98_scripts_refuted.
(** One file with one entry. *)
Definition dt_one (l : list string) : bytes := ld_text (["version: 1"; "dn: dc=com"]%string ++ l ++ [""%string]).
(** An attribute that is spelled differently: its value is in both files, and lost in the output. *)
Theorem C98_spelling_refuted : exists tA tB p t h e f g, ld_entries tA = [e] /\ ld_entries tB = [f] /\
  says e (B "cn") (B "a") /\ says f (B "cn") (B "a") /\
  dt_diff tA tB = (p, Exit0) /\ dt_patch tA p = (t, Exit0) /\
  fromLDIFFile ascii_lower lx_io lx_vio true x_depth t = LDone h /\ entry_at h 0%nat g /\ e_attrs g = [mkSet (bv "dc") [bv "com"]].
Proof.
  exists (dt_one ["CN: a"; "dc: com"]%string), (dt_one ["cn: a"; "dc: com"]%string). eexists _, _, _, _, _, _.
  split; [vm_compute; reflexivity|]. split; [vm_compute; reflexivity|].
  split. { eexists _, _. split; [left; reflexivity|]. split; [reflexivity|]. split; [reflexivity|]. eexists. split; [left; reflexivity|reflexivity]. }
  split. { eexists _, _. split; [left; reflexivity|]. split; [reflexivity|]. split; [reflexivity|]. eexists. split; [left; reflexivity|reflexivity]. }
  split; [vm_compute; reflexivity|]. split; [vm_compute; reflexivity|]. split; [vm_compute; reflexivity|]. split; [eexists; split; reflexivity|reflexivity].
Qed.
Print Assumptions C98_spelling_refuted.
(** A value that is not a text is replaced by another: the operation fails, nobody is told, and the
    output has both values. *)
Theorem C98_octets_refuted : exists tA tB p t h f g v, ld_entries tB = [f] /\ ~ says f (B "cn") v /\
  dt_diff tA tB = (p, Exit0) /\ dt_patch tA p = (t, Exit0) /\
  fromLDIFFile ascii_lower lx_io lx_vio true x_depth t = LDone h /\ entry_at h 0%nat g /\ says g (B "cn") v.
Proof.
  exists (dt_one ["cn:: /w=="; "dc: com"]%string), (dt_one ["cn:: /v4="; "dc: com"]%string). eexists _, _, _, _, _, [z2b 255].
  split; [vm_compute; reflexivity|]. split.
  { intros (a & k & I & T & Lk & (w & Iw & Tw)). cbn [e_attrs In] in I. destruct I as [<-|[<-|[]]]; cbn [s_key s_vals to_bytes In] in *.
    - destruct Iw as [<-|[]]. cbn [to_bytes] in Tw. discriminate.
    - apply Ok_inj in T. subst k. discriminate. }
  split; [vm_compute; reflexivity|]. split; [vm_compute; reflexivity|]. split; [vm_compute; reflexivity|]. split; [eexists; split; reflexivity|].
  eexists _, _. split; [left; reflexivity|]. split; [reflexivity|]. split; [reflexivity|]. eexists. split; [right; left; reflexivity|reflexivity].
Qed.
Print Assumptions C98_octets_refuted.
(** A patch none of whose operations succeeds: ldifpatch ends well, and writes the data as it was. *)
Theorem C98_ignored_refuted : exists tA p db ops os t, patches ascii_lower lx_io lx_vio p = Ok ops /\
  fromLDIFFile ascii_lower lx_io lx_vio true x_depth tA = LDone db /\
  patch_ops ascii_lower true x_depth 0%nat ops db = (db, os) /\ os = [Err (ELdap 32); Err (ELdap 32)] /\
  dt_patch tA p = (t, Exit0) /\ dt_patch tA ldif_header = (t, Exit0).
Proof.
  exists (dt_one ["dc: com"]%string), (ld_text ["version: 1"; "dn: cn=x,dc=com"; "changetype: delete"; ""; "dn: dc=com"; "changetype: add"; "dc: com"; ""]%string).
  eexists _, _, _, _. split; [vm_compute; reflexivity|]. split; [vm_compute; reflexivity|]. split; [vm_compute; reflexivity|]. split; [reflexivity|]. split; vm_compute; reflexivity.
Qed.
Print Assumptions C98_ignored_refuted.
