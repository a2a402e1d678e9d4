(** C80: loading LDIF into memory. *)
From Verif Require Import Base BaseFacts Utf8Model DnModel DnSpec EntryModel EntrySpec LdapSpec MatchModel LdifModel LdifSpec LdifRound
  InmemModel InmemSpec InmemHist InmemMove ServerModel LoadModel LoadSpec LoadProofs LoadDump PropsEntry PropsInmem PropsLdif.

(** C80. For every text that the parser reads, with entries [es] in order (each after its parent, no
    name twice): the directory holds exactly these entries, and it is a tree. *)
Theorem C80_loads_partial : forall (lower : str -> str) (io : Z -> Z -> res Z) (vio : str -> res Z) (oc : bool) (depth : nat)
    (C : rdn -> Prop) (text : bytes) (es : list entry),
  consistent lower C -> parse lower io vio false [text] = (map REntry es, Ok tt) -> rdns_ok C depth es -> es <> [] -> in_order lower es ->
  exists h L, fromLDIFFile lower io vio oc depth text = LDone h /\ tree h L /\ holds_exactly lower depth h es.
Proof.
  intros lower io vio oc depth C text es CC P R NE IO. destruct (parse_text lower io vio oc depth text es P) as (-> & O).
  exact (load_ok lower oc C CC depth es O R NE IO).
Qed.
Print Assumptions C80_loads_partial.
(** At the first entry that does not fit those before it, loading fails: noSuchObject without its
    parent, entryAlreadyExists with it. *)
Theorem C80_refuses_partial : forall (lower : str -> str) (io : Z -> Z -> res Z) (vio : str -> res Z) (oc : bool) (depth : nat)
    (C : rdn -> Prop) (text : bytes) (before : list entry) (e : entry) (after : list entry),
  consistent lower C -> parse lower io vio false [text] = (map REntry (before ++ e :: after), Ok tt) -> rdns_ok C depth (before ++ e :: after) ->
  before <> [] -> in_order lower before -> ~ fits lower before e ->
  exists x, fromLDIFFile lower io vio oc depth text = LFailed x /\
    (~ named lower before (dn_up (e_dn e)) -> x = ELdap 32) /\ (named lower before (dn_up (e_dn e)) -> e_dn e <> [] -> x = ELdap 68).
Proof.
  intros lower io vio oc depth C text a e b CC P R NE IO NF. destruct (parse_text lower io vio oc depth text (a ++ e :: b) P) as (-> & O).
  exact (load_bad lower oc C CC depth a e b O R NE IO NF).
Qed.
Print Assumptions C80_refuses_partial.
(** Every text is one that the parser reads as entries, or raises its exception. *)
Theorem C80_raises : forall (lower : str -> str) (io : Z -> Z -> res Z) (vio : str -> res Z) (oc : bool) (depth : nat) (text : bytes),
  (exists es, parse lower io vio false [text] = (map REntry es, Ok tt)) \/
  (exists rs x, parse lower io vio false [text] = (rs, Err x) /\ fromLDIFFile lower io vio oc depth text = LRaised x).
Proof.
  intros lower io vio oc depth text. destruct (parse lower io vio false [text]) as (rs & [[]|x]) eqn:P.
  - left. destruct (parse_records lower io vio text rs P) as (es & ->). eauto.
  - right. exists rs, x. split; [reflexivity|]. unfold fromLDIFFile. destruct text; [|now rewrite P]. vm_compute in P. injection P as <- <-. reflexivity.
Qed.
Print Assumptions C80_raises.
(** A file without an entry is read, but the Deferred never fires. *)
Theorem C80_no_entry_refuted : forall lower io vio oc depth, fromLDIFFile lower io vio oc depth ldif_header = LNever.
Proof. intros lower io vio oc depth. vm_compute. reflexivity. Qed.
Print Assumptions C80_no_entry_refuted.

Definition nl : bytes := [z2b 10].
Definition ld_text (l : list string) : bytes := concat (map (fun s => B s ++ nl) l).
(** Equal names that are spelled differently are both loaded: the directory has two entries with
    equal DNs. *)
Theorem C80_spelling_refuted : exists text a e h, parse ascii_lower lx_io lx_vio false [text] = (map REntry (a ++ [e]), Ok tt) /\
  ~ fits ascii_lower a e /\ fromLDIFFile ascii_lower lx_io lx_vio true x_depth text = LDone h /\ length h = 3%nat.
Proof.
  exists (ld_text ["dn: dc=com"; "dc: com"; ""; "dn: cn=a,dc=com"; "cn: a"; ""; "dn: cn=A,dc=com"; "cn: A"; ""]%string).
  eexists [mkEntry _ _; mkEntry _ _], (mkEntry _ _), _. split; [vm_compute; reflexivity|]. split; [|split; [vm_compute; reflexivity|reflexivity]].
  intros (_ & N). apply N. eexists. split; [right; left; reflexivity|]. apply DnProofs.dn_eqb_spec. vm_compute. reflexivity.
Qed.
Print Assumptions C80_spelling_refuted.

(** A directory written as LDIF and loaded is the same directory. *)
Theorem C80_dump_load_partial : forall (lower : str -> str) (io : Z -> Z -> res Z) (vio : str -> res Z) (oc : bool) (depth : nat)
    (C : rdn -> Prop) (h : heap) (L : list ref),
  consistent lower C -> lower_oc lower -> tree h L ->
  (forall r s e1 e2, In r L -> In s L -> entry_at h r e1 -> entry_at h s e2 -> same_dn lower (e_dn e1) (e_dn e2) -> r = s) ->
  (forall c e, In c L -> entry_at h c e -> ldif_entry_ok lower e /\ (length (e_dn e) < depth)%nat /\
     (c <> 0%nat -> forall rd p, e_dn e = rd :: p -> C rd)) ->
  exists text, dump lower oc depth h = Ok text /\
    (short_lines text -> exists h' L', fromLDIFFile lower io vio oc depth text = LDone h' /\ tree h' L' /\
       (forall c e, In c L -> entry_at h c e -> exists r e', lookup lower depth h' 0%nat (e_dn e) = Ok r /\ entry_at h' r e' /\
          same_dn lower (e_dn e') (e_dn e) /\ forall k v, says e' k v <-> says e k v) /\
       forall d, (length d < depth)%nat -> (forall c e, In c L -> entry_at h c e -> ~ same_dn lower (e_dn e) d) ->
         lookup lower depth h' 0%nat d = Err (ELdap 32)).
Proof.
  intros lower io vio oc depth C h L CC LOC T U H.
  assert (A : forall c, In c L -> exists e, entry_at h c e /\ dn_at h c = e_dn e).
  { intros c I. destruct (t_node h L T c I) as (n & N). exists (n_entry n). split; [exists n; auto|]. unfold dn_at. now rewrite N. }
  destruct (dump_load lower io vio oc depth C CC LOC h L T) as (text & E & X).
  - intros r s Ir Is. destruct (A r Ir) as (e1 & A1 & ->), (A s Is) as (e2 & A2 & ->). eauto.
  - intros c Ic. destruct (A c Ic) as (e & Ae & ->). apply (H c e Ic Ae).
  - intros c rd p Ic N. destruct (A c Ic) as (e & Ae & ->). apply (H c e Ic Ae). exact N.
  - intros c e Ic Ae. apply (H c e Ic Ae).
  - exists text. split; [exact E|]. intros S. destruct (X S) as (h' & L' & X1 & X2 & X3 & X4). exists h', L'. split; [exact X1|]. split; [exact X2|]. split; [exact X3|].
    intros d D N. apply X4; [exact D|]. intros c Ic. destruct (A c Ic) as (e & Ae & ->). eauto.
Qed.
Print Assumptions C80_dump_load_partial.

(** *** Examples *)
Section Orderb.
  Variable lower : str -> str.
  Definition namedb (es : list entry) (d : dn) : bool := existsb (fun x => dn_eqb lower (e_dn x) d) es.
  Definition fitsb (es : list entry) (e : entry) : bool :=
    match e_dn e with _ :: p => namedb es p && negb (namedb es (e_dn e)) | [] => false end.
  Fixpoint order_from (before es : list entry) : bool :=
    match es with
    | [] => true
    | e :: r => (match before with [] => true | _ => fitsb before e end) && order_from (before ++ [e]) r
    end.
  Lemma namedb_ok es d : namedb es d = true <-> named lower es d.
  Proof.
    unfold namedb. rewrite existsb_exists. split; intros (x & I & E); exists x; (split; [exact I|]); now apply DnProofs.dn_eqb_spec.
  Qed.
  Lemma fitsb_ok es e : fitsb es e = true <-> fits lower es e.
  Proof.
    unfold fitsb, fits. destruct (e_dn e) as [|rd p] eqn:E.
    - split; [discriminate|]. intros ((rd & p & Q & _) & _). discriminate.
    - rewrite andb_true_iff, negb_true_iff, namedb_ok. split.
      + intros (A & C). split; [exists rd, p; auto|]. rewrite <- namedb_ok. congruence.
      + intros ((rd' & p' & [= <- <-] & A) & C). split; [exact A|]. destruct (namedb es (rd :: p)) eqn:Q; [|reflexivity]. destruct C. now apply namedb_ok.
  Qed.
  Lemma order_from_ok es : forall before, order_from before es = true ->
    forall a e b, before ++ es = a ++ e :: b -> a <> [] -> (length before <= length a)%nat -> fits lower a e.
  Proof.
    induction es as [|x es IH]; intros before H a e b E NE Ln.
    - rewrite app_nil_r in E. apply (f_equal (@length entry)) in E. rewrite app_length in E. cbn in E. lia.
    - cbn [order_from] in H. apply andb_true_iff in H as (H1 & H2). destruct (Nat.eq_dec (length before) (length a)) as [Q|Q].
      + apply app_eq_app in E as (l & [(-> & E)|(-> & E)]).
        * rewrite app_length in Q. destruct l; [|cbn in Q; lia]. rewrite app_nil_r in *. injection E as -> _. destruct a; [congruence|]. now apply fitsb_ok.
        * rewrite app_length in Q. destruct l; [|cbn in Q; lia]. rewrite app_nil_r in *. injection E as <- _. destruct before; [congruence|]. now apply fitsb_ok.
      + apply (IH (before ++ [x]) H2 a e b); [now rewrite <- app_assoc|exact NE|]. rewrite app_length. cbn. lia.
  Qed.
  Lemma in_orderb es : order_from [] es = true -> in_order lower es.
  Proof. intros H a e b -> NE. apply (order_from_ok _ [] H a e b eq_refl NE). cbn. lia. Qed.
End Orderb.

Definition ld_good : bytes := ld_text ["version: 1"; "dn: dc=com"; "dc: com"; "objectclass: domain"; "objectClass: top"; "";
  "dn: ou=a,dc=com"; "ou: a"; ""; "dn: cn=x,OU=A,dc=com"; "cn: x"; "CN: y"; ""]%string.
Definition ld_entries (t : bytes) : list entry := entries (fst (parse ascii_lower lx_io lx_vio false [t])).
(** A text whose hypotheses hold, and what is loaded: the first entry's attributes, by name. *)
Example C80_case : parse ascii_lower lx_io lx_vio false [ld_good] = (map REntry (ld_entries ld_good), Ok tt) /\
  in_order ascii_lower (ld_entries ld_good) /\ rdns_ok (canonical ascii_lower) x_depth (ld_entries ld_good) /\
  exists h e, fromLDIFFile ascii_lower lx_io lx_vio true x_depth ld_good = LDone h /\ length h = 3%nat /\
    entry_at h 0%nat e /\ says e (B "objectclass") (B "domain") /\ lookup ascii_lower x_depth h 0%nat [rd1 "CN" "X"; rd1 "ou" "a"; rd1 "dc" "com"] = Ok 2%nat.
Proof.
  split; [vm_compute; reflexivity|]. split; [apply in_orderb; vm_compute; reflexivity|]. split.
  - split.
    + assert (H : forallb (fun e => Nat.ltb (length (e_dn e)) x_depth) (ld_entries ld_good) = true) by (vm_compute; reflexivity).
      intros e I. rewrite forallb_forall in H. specialize (H e I). now apply Nat.ltb_lt in H.
    + intros e rd p I E. assert (Q : map e_dn (tl (ld_entries ld_good)) = [[rd1 "ou" "a"; rd1 "dc" "com"]; [rd1 "cn" "x"; rd1 "OU" "A"; rd1 "dc" "com"]]) by (vm_compute; reflexivity).
      apply (in_map e_dn) in I. rewrite Q in I. destruct I as [I|[I|[]]]; rewrite <- I in E; injection E as <- _;
      ((split; [|split; [discriminate|]]); (apply Forall_cons; [|apply Forall_nil]); cbv [a_type a_value];
        [split; [|split]; [cbn; repeat (apply Forall_cons; [discriminate|]); apply Forall_nil|cbn; intuition discriminate|cbn; repeat (apply Forall_cons; [discriminate|]); apply Forall_nil]|split; reflexivity]).
  - eexists. eexists. split; [vm_compute; reflexivity|]. split; [reflexivity|]. split; [eexists; split; reflexivity|].
    split; [|vm_compute; reflexivity]. eexists _, _. split; [left; reflexivity|]. split; [reflexivity|]. split; [reflexivity|]. eexists. split; [left; reflexivity|reflexivity].
Qed.
(** A child before its parent, and a name twice. *)
Example C80_case_refused :
  fromLDIFFile ascii_lower lx_io lx_vio true x_depth (ld_text ["dn: dc=com"; "dc: com"; ""; "dn: cn=x,ou=a,dc=com"; "cn: x"; ""; "dn: ou=a,dc=com"; "ou: a"; ""]%string) = LFailed (ELdap 32) /\
  fromLDIFFile ascii_lower lx_io lx_vio true x_depth (ld_text ["dn: dc=com"; "dc: com"; ""; "dn: ou=a,dc=com"; "ou: a"; ""; "dn: ou=a,dc=com"; "ou: b"; ""]%string) = LFailed (ELdap 68).
Proof. split; vm_compute; reflexivity. Qed.
(** The directory of C29_case, written and loaded. *)
Lemma x_entry_ok d vs ws : ldif_dn_ok d -> forall k, name_ok (B k) -> forallb (fun v => match v with PStr s => match utf8_encode s with Ok _ => true | _ => false end | _ => false end) (vs ++ ws) = true ->
  lowv ascii_lower (sv k) <> lowv ascii_lower (sv "objectClass") -> convertible (sv k) -> to_bytes (sv k) = Ok (B k) ->
  ldif_entry_ok ascii_lower (mkEntry d [mkSet (sv k) vs; mkSet (sv "objectClass") ws]).
Proof.
  intros D k N F NE Ck Tk. split; [exact D|]. assert (V : forall v, In v (vs ++ ws) -> exists s b, v = PStr s /\ utf8_encode s = Ok b).
  { intros v I. rewrite forallb_forall in F. specialize (F v I). destruct v as [s|]; [|discriminate]. destruct (utf8_encode s) as [b|] eqn:E; [|discriminate]. eauto. }
  split.
  - cbn [e_attrs map s_key]. apply NoDup_cons; [intros [Q|[]]; congruence|]. apply NoDup_cons; [intros []|apply NoDup_nil].
  - intros a [<-|[<-|[]]]; cbn [s_key s_vals].
    + split; [exact Ck|]. split; [intros k' E; rewrite Tk in E; apply Ok_inj in E; now subst|]. right. intros v I. apply V, in_or_app. now left.
    + split; [vm_compute; eauto|]. split; [intros k' E; apply (lx_key (B "objectClass")); [reflexivity..|exact E]|]. right. intros v I. apply V, in_or_app. now right.
Qed.
Ltac x_dn := split; [|discriminate]; repeat (first [solve [apply scalar_lit; reflexivity]|apply Forall_nil|apply Forall_cons|split]);
    (intros X; vm_compute in X; repeat destruct X as [X|X]; congruence).
Example C80_case_dump : exists text h, dump ascii_lower true x_depth x_heap = Ok text /\ short_lines text /\
  (forall c e, entry_at x_heap c e -> ldif_entry_ok ascii_lower e /\ (length (e_dn e) < x_depth)%nat) /\
  fromLDIFFile ascii_lower lx_io lx_vio true x_depth text = LDone h /\ map n_dn h = [x_root; rd1 "ou" "b" :: x_root; rd1 "ou" "a" :: x_root; rd1 "cn" "y" :: rd1 "ou" "a" :: x_root; rd1 "cn" "x" :: rd1 "ou" "a" :: x_root].
Proof.
  eexists. eexists. split; [vm_compute; reflexivity|]. split; [apply short_small; vm_compute; reflexivity|]. split; [|split; [vm_compute; reflexivity|vm_compute; reflexivity]].
  assert (Q : map n_entry x_heap = [mkEntry x_root [mkSet (bv "objectClass") [bv "top"]; mkSet (bv "cn") [bv "root"]];
    mkEntry (rd1 "ou" "a" :: x_root) [mkSet (sv "ou") [sv "a"]; mkSet (sv "objectClass") [sv "top"]];
    mkEntry (rd1 "ou" "b" :: x_root) [mkSet (sv "ou") [sv "b"]; mkSet (sv "objectClass") [sv "top"]];
    mkEntry (rd1 "cn" "x" :: rd1 "ou" "a" :: x_root) [mkSet (sv "cn") [sv "x"]; mkSet (sv "objectClass") [sv "top"]];
    mkEntry (rd1 "cn" "y" :: rd1 "ou" "a" :: x_root) [mkSet (sv "cn") [sv "y"]; mkSet (sv "objectClass") [sv "top"]]]) by (vm_compute; reflexivity).
  intros c e (n & N & <-). apply nth_error_In in N. apply (in_map n_entry) in N. rewrite Q in N. clear Q.
  destruct N as [<-|[<-|[<-|[<-|[<-|[]]]]]]; (split; [|cbn; unfold x_depth; lia]);
    [|apply x_entry_ok; [x_dn|apply LdifRead.name_lit; reflexivity|vm_compute; reflexivity|vm_compute; congruence|vm_compute; eauto|reflexivity]..].
  split; [x_dn|]. split; [repeat constructor; vm_compute; intuition congruence|]. intros a [<-|[<-|[]]]; (split; [vm_compute; eauto|]); split.
  - intros k E. apply (lx_key (B "objectClass")); [reflexivity..|exact E].
  - left. intros v [<-|[]]. unfold bv. eauto.
  - intros k E. apply (lx_key (B "cn")); [reflexivity..|exact E].
  - left. intros v [<-|[]]. unfold bv. eauto.
Qed.
