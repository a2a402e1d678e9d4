(** C85: fetching the schema; C86: the naming context. *)
From Coq Require Import Permutation.
From Verif Require Import Base BaseFacts Utf8Model DnModel DnSpec EntryModel LdapModel LdapSpec SyntaxModel SyntaxSpec SchemaModel SchemaSpec SchemaProofs PropsSchema
  FetchSchemaModel FetchSchemaSpec FetchSchemaProofs.

(** ** C85 *)
(** The base has one subschemaSubentry, and that entry has attribute types, all texts of the grammar: two
    searches are sent, the second for the entry that the first has named, and the result has the
    descriptions of all attribute types and object classes that were sent, each once, and no others.
    [order]: sets of values are iterated in any order. *)
Theorem C85_fetch_partial : forall lower io order, (forall l, Permutation (order l) l) ->
  forall rs1 r1 e1 rs2 r2 e2 base b1 n1 ats1 v t d b2 n2 ats2,
  Forall (search_part io) rs1 -> Forall (search_part io) rs2 -> over r1 -> over r2 ->
  utf8_encode (dn_text base) = Ok b1 -> List.filter is_entry rs1 = [SearchEntry n1 ats1] -> (forall x, sent ats1 (B "subschemasubentry") x <-> x = v) ->
  utf8_decode v = Ok t -> parse_dn io t = Ok d -> utf8_encode (dn_text d) = Ok b2 -> List.filter is_entry rs2 = [SearchEntry n2 ats2] ->
  (forall t, sent ats2 (B "attributetypes") t -> exists x, atd_text x t) -> (forall t, sent ats2 (B "objectclasses") t -> exists x, ocd_text x t) ->
  (exists t, sent ats2 (B "attributetypes") t) ->
  exists ads ods ts os, fetch_schema lower io order None None base (answers rs1 r1 e1) (answers rs2 r2 e2) =
      ([asks 1 b1 [B "subschemaSubentry"]; asks 1 b2 [B "attributeTypes"; B "objectClasses"]], Some (Ok (ads, ods))) /\
    lists ts (sent ats2 (B "attributetypes")) /\ Forall2 atd_text ads ts /\ lists os (sent ats2 (B "objectclasses")) /\ Forall2 ocd_text ods os.
Proof. exact fetch_schema_spec. Qed.
Print Assumptions C85_fetch_partial.
(** While the first search is not over there is no result. When it fails, finds no entry or several, or
    an entry without exactly one subschemaSubentry, the fetch fails, and no second search is sent. *)
Theorem C85_first_search : forall lower io order, (forall l, Permutation (order l) l) ->
  forall rs1 r1 e1 msgs2 net2 base b1, Forall (search_part io) rs1 -> utf8_encode (dn_text base) = Ok b1 ->
  fetch_schema lower io order None net2 base (map response_obj rs1) msgs2 = ([asks 1 b1 [B "subschemaSubentry"]], None) /\
  let x := fetch_schema lower io order None net2 base (answers rs1 r1 e1) msgs2 in
  (r_code r1 <> 0 -> r_code r1 <> 4 -> x = ([asks 1 b1 [B "subschemaSubentry"]], Some (Err (ELdap (r_code r1))))) /\
  (over r1 -> length (List.filter is_entry rs1) <> 1%nat -> x = ([asks 1 b1 [B "subschemaSubentry"]], Some (Err (ELdap 80)))) /\
  (over r1 -> forall n ats, List.filter is_entry rs1 = [SearchEntry n ats] -> (forall v, ~ forall x, sent ats (B "subschemasubentry") x <-> x = v) ->
     x = ([asks 1 b1 [B "subschemaSubentry"]], Some (Err EAssert))).
Proof. exact fetch_schema_first. Qed.
Print Assumptions C85_first_search.
(** The second search: no result before it is over; it fails when that search does, or does not find one entry. *)
Theorem C85_second_search : forall lower io order,
  forall rs r e v t d b, Forall (search_part io) rs -> utf8_decode v = Ok t -> parse_dn io t = Ok d -> utf8_encode (dn_text d) = Ok b ->
  let q := [asks 1 b [B "attributeTypes"; B "objectClasses"]] in
  fetch_cb lower io order None (PBytes v) (map response_obj rs) = (q, None) /\
  let x := fetch_cb lower io order None (PBytes v) (answers rs r e) in
  (r_code r <> 0 -> r_code r <> 4 -> x = (q, Some (Err (ELdap (r_code r))))) /\
  (over r -> length (List.filter is_entry rs) <> 1%nat -> x = (q, Some (Err (ELdap 80)))).
Proof. exact fetch_cb_spec. Qed.
Print Assumptions C85_second_search.

Definition fx_io : Z -> Z -> res Z := fun _ _ => Err EValue.
Definition fx_id : list pyval -> list pyval := fun l => l.
Definition fx_base : dn := [[mkAtv (S_ "dc") (S_ "com")]].
Definition fx_first : list response := [SearchEntry (B "dc=com") [(B "SubschemaSubentry", [B "cn=schema"])]].
Definition fx_ok : result := mkResult 0 [] [].
Definition fx_atd (oid : bytes) : atd := mkAtd oid (Some [B "a"]) None false None None None None None false false false None [].
Definition fx_ocd : ocd := mkOcd (B "1.4") (Some [B "c"]) None false (SupList []) (B "STRUCTURAL") [] [].
Definition fx_second (ats : list (bytes * list bytes)) : list response := [SearchEntry (B "cn=schema") ats].
Definition fx_fetch (ats : list (bytes * list bytes)) := fetch_schema ascii_lower fx_io fx_id None None fx_base (answers fx_first fx_ok []) (answers (fx_second ats) fx_ok []).
Lemma fx_atd_text oid : numeric oid -> atd_text (fx_atd oid) (print_atd (fx_atd oid)).
Proof.
  intros N. apply print_atd_text. split; [exact N|]. split; [now apply no_b|]. split; [exact I|].
  split; [repeat (apply Forall_cons; [exact I|]); apply Forall_nil|]. split; [intros u [=]|apply Forall_nil].
Qed.
Definition fx_oct : bytes := print_ocd fx_ocd.
Lemma fx_ocd_text : ocd_text fx_ocd fx_oct.
Proof.
  apply print_ocd_text. split; [now apply oid_check_iff|]. split; [now apply no_b|]. split; [exact I|].
  repeat split; cbn; auto.
Qed.
(** A schema with object classes and no attribute types: AssertionError. *)
Theorem C85_no_types_refuted : exists t d l, ocd_text d t /\ fx_fetch [(B "objectClasses", [t])] = (l, Some (Err EAssert)).
Proof. exists fx_oct, fx_ocd. eexists. split; [exact fx_ocd_text|vm_compute; reflexivity]. Qed.
Print Assumptions C85_no_types_refuted.
(** An object class with an extension, which RFC 4512 allows for every description and which the code
    reads in attribute types: nothing of the schema can be had. *)
Theorem C85_extension_refuted : exists l, parse_ocd (B "( 1.4 NAME 'c' X-ORIGIN 'r' )") = Err EAssert /\
  (exists d, parse_atd (B "( 1.4 NAME 'c' X-ORIGIN 'r' )") = Ok d) /\
  fx_fetch [(B "attributeTypes", [B "( 1.2 NAME 'a' )"]); (B "objectClasses", [fx_oct; B "( 1.4 NAME 'c' X-ORIGIN 'r' )"])] = (l, Some (Err EAssert)).
Proof. eexists. split; [vm_compute; reflexivity|]. split; [eexists; vm_compute; reflexivity|vm_compute; reflexivity]. Qed.
Print Assumptions C85_extension_refuted.
Definition fx_ats : list (bytes * list bytes) := [(B "attributetypes", [B "( 1.2 NAME 'a' )"; B "( 1.3 NAME 'a' )"]); (B "objectClasses", [fx_oct])].
Example C85_case : Forall (search_part fx_io) fx_first /\ Forall (search_part fx_io) (fx_second fx_ats) /\ over fx_ok /\
  (forall x, sent [(B "SubschemaSubentry", [B "cn=schema"])] (B "subschemasubentry") x <-> x = B "cn=schema") /\
  (forall t, sent fx_ats (B "attributetypes") t -> exists x, atd_text x t) /\ (forall t, sent fx_ats (B "objectclasses") t -> exists x, ocd_text x t) /\
  (exists t, sent fx_ats (B "attributetypes") t) /\ exists l, fx_fetch fx_ats = (l, Some (Ok ([fx_atd (B "1.2"); fx_atd (B "1.3")], [fx_ocd]))).
Proof.
  split; [apply Forall_cons; [split; [do 2 eexists; split; vm_compute; reflexivity|]|constructor]|]. { constructor; [intros []|constructor]. }
  split; [apply Forall_cons; [split; [do 2 eexists; split; vm_compute; reflexivity|]|constructor]|]. { constructor; [intros [E|[]]; discriminate|constructor; [intros []|constructor]]. }
  split; [split; [now left|reflexivity]|].
  split. { intros x. split; [intros (k & vs & [E|[]] & _ & V); injection E as <- <-; destruct V as [<-|[]]; reflexivity|intros ->; do 2 eexists; split; [left; reflexivity|split; [reflexivity|now left]]]. }
  split. { intros t (k & vs & [E|[E|[]]] & L & V); injection E as <- <-; [|discriminate]. destruct V as [<-|[<-|[]]]; [exists (fx_atd (B "1.2"))|exists (fx_atd (B "1.3"))]; apply fx_atd_text; now apply oid_check_iff. }
  split. { intros t (k & vs & [E|[E|[]]] & L & V); injection E as <- <-; [discriminate|]. destruct V as [<-|[]]. exists fx_ocd. exact fx_ocd_text. }
  split; [do 3 eexists; split; [left; reflexivity|split; [reflexivity|now left]]|]. eexists. vm_compute. reflexivity.
Qed.

(** ** C86 *)
(** One search, for the root of the server. When it succeeds, the result is a naming context that the
    server announces and the entry is in; if there is none, NoContainingNamingContext. All announced
    contexts must be readable. *)
Theorem C86_naming_context_partial : forall lower io order, (forall l, Permutation (order l) l) ->
  forall rs r extra c, Forall (search_part io) rs ->
  (forall n ats v, In (SearchEntry n ats) rs -> sent ats (B "namingcontexts") v -> exists t d, utf8_decode v = Ok t /\ parse_dn io t = Ok d) ->
  naming_context lower io order None c (map response_obj rs) = ([asks 0 [] [B "namingContexts"]], None) /\
  exists x, naming_context lower io order None c (answers rs r extra) = ([asks 0 [] [B "namingContexts"]], x) /\
    (over r -> (exists d, x = Some (Ok d) /\ announced io rs d /\ in_tree lower d (y_dn c)) \/
               (x = Some (Err ENoContext) /\ forall d, announced io rs d -> ~ in_tree lower d (y_dn c))) /\
    (r_code r <> 0 -> r_code r <> 4 -> x = Some (Err (ELdap (r_code r)))).
Proof. exact naming_context_spec. Qed.
Print Assumptions C86_naming_context_partial.
Definition fx_root (vs : list bytes) : list obj := answers [SearchEntry [] [(B "namingContexts", vs)]] fx_ok [].
Definition fx_entry : cent := new_cent ascii_lower [[mkAtv (S_ "dc") (S_ "a")]; [mkAtv (S_ "dc") (S_ "com")]] [].
(** Of two contexts that hold the entry, which one it is depends on the order of a set, so it need not be the innermost. *)
Theorem C86_innermost_refuted : exists vs o1 o2 l d1 d2, (forall x, Permutation (o1 x) x) /\ (forall x, Permutation (o2 x) x) /\
  naming_context ascii_lower fx_io o1 None fx_entry (fx_root vs) = (l, Some (Ok d1)) /\ naming_context ascii_lower fx_io o2 None fx_entry (fx_root vs) = (l, Some (Ok d2)) /\
  d1 <> d2 /\ in_tree ascii_lower d1 d2.
Proof.
  exists [B "dc=com"; B "dc=a,dc=com"], fx_id, (@rev pyval), [asks 0 [] [B "namingContexts"]], fx_base, (y_dn fx_entry). split; [intros x; apply Permutation_refl|]. split; [intros x; apply Permutation_sym, Permutation_rev|].
  split; [vm_compute; reflexivity|]. split; [vm_compute; reflexivity|]. split; [discriminate|]. apply DnProofs.contains_order. vm_compute. reflexivity.
Qed.
Print Assumptions C86_innermost_refuted.
(** A context that cannot be read hides the one that the entry is in. *)
Theorem C86_unreadable_refuted : exists l x, naming_context ascii_lower fx_io fx_id None fx_entry (fx_root [B "x"; B "dc=com"]) = (l, Some (Err x)) /\ x <> ENoContext /\
  naming_context ascii_lower fx_io fx_id None fx_entry (fx_root [B "dc=com"; B "x"]) = (l, Some (Ok fx_base)).
Proof. do 2 eexists. split; [vm_compute; reflexivity|]. split; [discriminate|vm_compute; reflexivity]. Qed.
Print Assumptions C86_unreadable_refuted.
Example C86_case : (exists l, naming_context ascii_lower fx_io fx_id None fx_entry (fx_root [B "dc=org"; B "DC=Com"]) = (l, Some (Ok [[mkAtv (S_ "DC") (S_ "Com")]]))) /\
  (exists l, naming_context ascii_lower fx_io fx_id None fx_entry (fx_root [B "dc=org"; B "dc=b,dc=com"]) = (l, Some (Err ENoContext))).
Proof. split; eexists; vm_compute; reflexivity. Qed.
