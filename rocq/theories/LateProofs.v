(** Proofs about the server in front of a directory that answers later. *)
From Verif Require Import Base BaseFacts BerModel LdapModel LdapSpec Utf8Model DnModel EntryModel DeltaModel MatchModel
  ServerModel ServerSpec ServerProofs LateModel LateSpec.

(** ** Readers that raise no LDAP error *)
Lemma nl_utf8_decode : forall b, nl (utf8_decode b).
Proof.
  fix IH 1. intros [|b0 r]; cbn [utf8_decode]; [nlc|].
  destruct (b2z b0 <? 128); [apply nl_bind; [apply IH|nlc]|].
  destruct (_ && _); [destruct r as [|b1 r1]; [nlc|]; destruct (cont b1); [apply nl_bind; [apply IH|nlc]|nlc]|].
  destruct (_ && _); [destruct r as [|b1 [|b2 r2]]; try nlc; destruct (_ && _); [apply nl_bind; [apply IH|nlc]|nlc]|].
  destruct (_ && _); [destruct r as [|b1 [|b2 [|b3 r3]]]; try nlc; destruct (_ && _); [apply nl_bind; [apply IH|nlc]|nlc]|nlc].
Qed.
Lemma nl_mapR A B (f : A -> res B) l : (forall a, nl (f a)) -> nl (mapR f l).
Proof. intros H. induction l; cbn [mapR]; [apply nl_ok|]. apply nl_bind; [apply H|intros]. apply nl_bind; [apply IHl|intros; apply nl_ok]. Qed.
Lemma nl_bytes_value o : nl (bytes_value o).
Proof. unfold bytes_value. apply nl_bind; [apply nl_value_of|]. intros []; nlc. Qed.
Lemma nl_add_attrs o : nl (add_attrs o).
Proof.
  unfold add_attrs. apply nl_bind; [apply nl_iter_of|intros]. apply nl_bind; [|intros; apply nl_ok]. apply nl_mapR. intros x. unfold add_attr.
  apply nl_bind; [apply nl_iter_of|]. intros [|? [|? [|]]]; try nlc. apply nl_bind; [apply nl_bytes_value|intros].
  apply nl_bind; [apply nl_iter_of|intros]. apply nl_bind; [apply nl_mapR, nl_bytes_value|intros; apply nl_ok].
Qed.
Section Io.
  Variable io : Z -> Z -> res Z.
  Hypothesis IO : forall a b c, io a b <> Err (ELdap c).
  Lemma nl_unescape : forall s, nl (unescape io s).
  Proof.
    fix IH 1. intros [|c r]; cbn [unescape]; [nlc|]. destruct (c =? c_bs).
    - destruct r as [|d r2]; [nlc|]. destruct (lower_hex d).
      + destruct r2 as [|e r3]; [apply nl_bind; [unfold int16_1; destruct (hexval d); nlc|nlc]|]. apply nl_bind.
        * unfold int16. destruct (hexval d); [|nlc]. destruct (hexval e); [nlc|]. destruct (_ || _); [nlc|]. destruct (_ <? _); [nlc|]. intros ?. apply IO.
        * intros v. apply nl_bind; [apply IH|nlc].
      + apply nl_bind; [apply IH|nlc].
    - apply nl_bind; [apply IH|nlc].
  Qed.
  Lemma nl_parse_rdn s : nl (parse_rdn io s).
  Proof.
    unfold parse_rdn.
    repeat first [apply nl_unescape | apply nl_bind; [|intros] | apply nl_mapR; intros | apply nl_ok
      | match goal with |- nl (Err _) => intros ?; discriminate | |- nl (match ?x with _ => _ end) => destruct x | |- nl (parse_atv ?x) => unfold parse_atv end].
  Qed.
  Lemma nl_parse_dn s : nl (parse_dn io s).
  Proof.
    unfold parse_dn.
    repeat first [apply nl_parse_rdn | apply nl_bind; [|intros] | apply nl_mapR; intros | apply nl_ok
      | match goal with |- nl (Err _) => intros ?; discriminate | |- nl (match ?x with _ => _ end) => destruct x end].
  Qed.
  Lemma nl_to_dn v : nl (to_dn io v).
  Proof. destruct v; cbn [to_dn]; try nlc. apply nl_bind; [apply nl_utf8_decode|intros; apply nl_parse_dn]. Qed.
  Lemma nl_from_ldap o : nl (from_ldap io o).
  Proof.
    destruct o; cbn [from_ldap]; try (intros ? ?; discriminate). apply nl_bind.
    - apply nl_mapR. intros a. unfold mod_from_ldap. apply nl_bind; [apply nl_iter_of|]. intros [|? [|? [|]]]; try nlc.
      apply nl_bind; [apply nl_value_of|intros]. destruct (class_of_op _); [|intros ? ?; discriminate]. apply nl_bind; [apply nl_iter_of|]. intros [|? [|? [|]]]; try nlc.
      apply nl_bind; [apply nl_bytes_value|intros]. apply nl_bind; [apply nl_iter_of|intros]. apply nl_bind; [apply nl_mapR, nl_bytes_value|nlc].
    - intros l. destruct object; try nlc. apply nl_bind; [apply nl_utf8_decode|intros]. apply nl_bind; [apply nl_parse_dn|nlc].
  Qed.
End Io.

(** ** Sequences of events *)
Lemma each_nil P : each P [].
Proof. intros [|? ?] e b E; discriminate. Qed.
Lemma each_snoc P t e : each P t -> P t e -> each P (t ++ [e]).
Proof.
  intros H HE a x b E. destruct b as [|y b _] using rev_ind.
  - apply app_inj_tail in E as (<- & <-). exact HE.
  - change (x :: b ++ [y]) with ((x :: b) ++ [y]) in E. rewrite app_assoc in E. apply app_inj_tail in E as (E & _). now apply (H a x b).
Qed.
Lemma In_snoc A (x y : A) l : In x (l ++ [y]) <-> In x l \/ x = y.
Proof. rewrite in_app_iff. cbn. intuition. Qed.
Lemma two {A} (x y : A) t : In x t -> In y t ->
  x = y \/ (exists a b, t = a ++ x :: b /\ In y a) \/ (exists a b, t = a ++ y :: b /\ In x a).
Proof.
  intros X Y. apply in_split in X as (a & b & ->). apply in_app_iff in Y as [Y|[Y|Y]]; [right; left; eauto|now left|].
  apply in_split in Y as (b1 & b2 & ->). right. right. exists (a ++ x :: b1), b2. split; [now rewrite <- app_assoc|]. apply in_app_iff. right. now left.
Qed.
Lemma results_snoc k t e : results k (t ++ [e]) = results k t ++ result_in k e.
Proof. unfold results. rewrite flat_map_app. cbn. now rewrite app_nil_r. Qed.
Lemma calls_for_snoc k t e : calls_for k (t ++ [e]) = calls_for k t ++ match e with TCall _ k' c => if Nat.eqb k k' then [c] else [] | _ => [] end.
Proof. unfold calls_for. rewrite flat_map_app. cbn. now rewrite app_nil_r. Qed.
Definition whos (t : list tev) : list nat * option ent := fold_left who_step t ([], None).
Lemma whos_snoc t e : whos (t ++ [e]) = who_step (whos t) e.
Proof. unfold whos. now rewrite fold_left_app. Qed.
Lemma who_fst s e n : In n (fst (who_step s e)) <-> In n (fst s) \/ exists k e' au, e = TCall n k (CBind e' au).
Proof.
  destruct e; cbn [who_step]; try (split; [tauto|intros [?|(?&?&?&?)]; [assumption|discriminate]]).
  - destruct req; try (split; [tauto|intros [?|(?&?&?&?)]; [assumption|discriminate]]).
    destruct version as [|[|[[]|[]|]|]|]; try (split; [tauto|intros [?|(?&?&?&?)]; [assumption|discriminate]]).
    destruct dn as [| |[]]; try (split; [tauto|intros [?|(?&?&?&?)]; [assumption|discriminate]]).
    destruct (match cs with Some _ => _ | None => _ end); (split; [tauto|intros [?|(?&?&?&?)]; [assumption|discriminate]]).
  - destruct c; try (split; [tauto|intros [?|(?&?&?&?)]; [assumption|discriminate]]).
    cbn. split; [intros [->|H]; eauto 6|]. intros [H|(?&?&?&[= -> _ _ _])]; auto.
  - destruct r as [o|]; [|split; [tauto|intros [?|(?&?&?&?)]; [assumption|discriminate]]].
    destruct (existsb _ _); (split; [tauto|intros [?|(?&?&?&?)]; [assumption|discriminate]]).
Qed.
Lemma check_iff cs : checkControls cs = Ok tt <-> no_critical cs.
Proof.
  destruct cs as [l|]; cbn; [|tauto]. induction l as [|((t, cr), v) l IH]; cbn; [split; [intros _ ? ? ? []|reflexivity]|].
  destruct (truthy cr) eqn:T.
  - split; [destruct t; discriminate|]. intros H. specialize (H t cr v (or_introl eq_refl)). congruence.
  - rewrite IH. split; [intros H t0 cr0 v0 [[= <- <- <-]|I]; [assumption|now apply (H t0 cr0 v0)]|intros H t0 cr0 v0 I; apply (H t0 cr0 v0); now right].
Qed.
Lemma crit_iff cs : (match cs with None => true | Some l => forallb (fun c => negb (truthy (snd (fst c)))) l end) = true <-> no_critical cs.
Proof.
  destruct cs as [l|]; cbn; [|tauto]. rewrite forallb_forall. split.
  - intros H t cr v I. specialize (H _ I). cbn in H. now destruct (truthy cr).
  - intros H ((t, cr), v) I. cbn. now rewrite (H t cr v I).
Qed.
Lemma check_err cs x : checkControls cs = Err x -> x = ELdap 12 \/ x = EType.
Proof.
  destruct cs as [l|]; cbn; [|discriminate]. induction l as [|((t, cr), v) l IH]; cbn; [discriminate|].
  destruct (truthy cr); [|assumption]. destruct t; intros [= <-]; auto.
Qed.

Section Late.
  Variable lower : str -> str.
  Variable io : Z -> Z -> res Z.
  Variable oc_first : bool.
  Variable text : exn -> bytes.
  Variable root : ent.
  Hypothesis IO : forall a b c, io a b <> Err (ELdap c).
  Variable tame : Prop.                          (** searches call back in time *)
  Local Notation wr := (written lower oc_first root).
  Local Notation cd := (called io).

  Lemma call_once t n k c k' c' : each cd t -> In (TCall n k c) t -> In (TCall n k' c') t -> k = k' /\ c = c'.
  Proof.
    intros H A B. destruct (two _ _ _ A B) as [[= -> ->]|[(a & b & E & I)|(a & b & E & I)]]; [auto| |];
      apply H in E as (E & _); exfalso; eapply E, I.
  Qed.
  Lemma fired_once t n r r' : each cd t -> In (TFired n r) t -> In (TFired n r') t -> r = r'.
  Proof.
    intros H A B. destruct (two _ _ _ A B) as [[= ->]|[(a & b & E & I)|(a & b & E & I)]]; [auto| |];
      apply H in E as (_ & E); exfalso; eapply E, I.
  Qed.
  Lemma came_once t k id req cs nm id' req' cs' nm' : each cd t -> came t k id req cs nm -> came t k id' req' cs' nm' ->
    id = id' /\ req = req' /\ cs = cs' /\ nm = nm'.
  Proof.
    unfold came. intros H A B. destruct (two _ _ _ A B) as [[= -> -> -> ->]|[(a & b & E & I)|(a & b & E & I)]]; [auto| |];
      apply H in E; exfalso; eapply E, I.
  Qed.

  (** ** The requests that are in progress *)
  Definition is_abandon (req : obj) : Prop := exists t z, req = OInt KAbandon t z.
  (** What a stage means for the request *)
  Definition stage_ok (t : list tev) (n k : nat) (req : obj) (g : stage) : Prop :=
    match g with
    | GBind auth => (exists d, In (TCall n k (CLookup d)) t) /\ exists tg v, req = OBindReq tg (VInt 3) v auth
    | GBound => exists e auth tg v, In (TCall n k (CBind e auth)) t /\ req = OBindReq tg (VInt 3) v auth
    | GSearch f attrs scope deref size time types => (exists d, In (TCall n k (CLookup d)) t) /\ exists tg v, req = OSearchReq tg v scope deref size time types f attrs
    | GFound attrs => exists e f scope deref size time types tg v,
        In (TCall n k (CSearch e f attrs scope deref size time types)) t /\ req = OSearchReq tg v scope deref size time types f attrs
    | GCompare ava => (exists d, In (TCall n k (CLookup d)) t) /\ exists tg v, req = OCmpReq tg v ava
    | GCompared => exists e f tg v ava, In (TCall n k (CCompare e f)) t /\ req = OCmpReq tg v ava
    | GDelete => (exists d, In (TCall n k (CLookup d)) t) /\ exists tg b, req = OStr KDelReq tg b
    | GDeleted => exists e tg b, In (TCall n k (CDelete e)) t /\ req = OStr KDelReq tg b
    | GAdd rd attrs => (exists d, In (TCall n k (CLookup d)) t) /\
        exists tg v l r up, req = OAddReq tg v l /\ to_dn io v = Ok (r :: up) /\ rd = rdn_text r /\ add_attrs l = Ok attrs
    | GAdded => exists e rd attrs tg v l, In (TCall n k (CAdd e rd attrs)) t /\ req = OAddReq tg v l
    | GMove to => (exists d, In (TCall n k (CLookup d)) t) /\
        exists tg v rd del sup, req = OModDNReq tg v rd del sup /\ truthy del = true /\ renames io v rd sup to
    | GMoved => exists e to tg v rd del sup, In (TCall n k (CMove e to)) t /\ req = OModDNReq tg v rd del sup
    | GPatch => exists d ms tg v l, In (TCall n k (CPatch d ms)) t /\ req = OModReq tg v l
    | GCommit => exists e tg v l, In (TCall n k (CCommit e)) t /\ req = OModReq tg v l
    | GPassword _ => exists e new tg n' v, In (TCall n k (CPassword e new)) t /\ req = OExtReq tg n' v
    end.
  Definition rank (g : stage) : nat :=
    match g with
    | GBind _ | GSearch _ _ _ _ _ _ _ | GCompare _ | GDelete | GAdd _ _ | GMove _ | GPatch | GPassword _ => 1
    | _ => 2
    end.
  Lemma stage_mono t t' n k req g : incl t t' -> stage_ok t n k req g -> stage_ok t' n k req g.
  Proof.
    intros I. destruct g; cbn [stage_ok]; intros H;
      repeat match goal with
      | H : _ /\ _ |- _ => destruct H
      | H : exists _, _ |- _ => destruct H
      | H : In _ t |- _ => apply I in H
      end; repeat match goal with |- _ /\ _ => split | |- exists _, _ => eexists end; eauto.
  Qed.
  (** The calls for a request that have fired gave something *)
  Definition calm (t : list tev) (k : nat) : Prop := forall n c r, In (TCall n k c) t -> In (TFired n r) t -> exists o, r = DOk o.
  Definition waits (t : list tev) (n : nat) (w : wait) : Prop :=
    exists req cs nm, came t (w_req w) (w_id w) req cs nm /\ kind_of req = Some (w_kind w) /\ no_critical cs /\
      stage_ok t n (w_req w) req (w_stage w) /\ (forall r, ~ In (TFired n r) t) /\ results (w_req w) t = [] /\
      calm t (w_req w) /\ (length (calls_for (w_req w) t) <= rank (w_stage w))%nat.
  Lemma incl_snoc {A} (t : list A) e : incl t (t ++ [e]). Proof. intros x. rewrite In_snoc. auto. Qed.
  Lemma waits_snoc t n w e : waits t n w -> (forall r, e <> TFired n r) -> result_in (w_req w) e = [] ->
    (forall n' c, e <> TCall n' (w_req w) c) -> (forall n' r, e = TFired n' r -> forall c, ~ In (TCall n' (w_req w) c) t) ->
    waits (t ++ [e]) n w.
  Proof.
    intros (req & cs & nm & C & K & NC & ST & NF & R & CA & L) F RI NT NFc. exists req, cs, nm.
    split; [apply In_snoc; now left|]. split; [assumption|]. split; [assumption|].
    split; [eapply stage_mono; [apply incl_snoc|eassumption]|].
    split. { intros r I. apply In_snoc in I as [I|<-]; [eapply NF, I|now apply (F r)]. }
    split; [now rewrite results_snoc, R, RI|]. split.
    - intros n' c r I J. apply In_snoc in I as [I|I]; [|symmetry in I; now apply NT in I]. apply In_snoc in J as [J|J]; [eapply CA; eassumption|].
      symmetry in J. exfalso. eapply NFc; eassumption.
    - rewrite calls_for_snoc, app_length. destruct e; try (cbn; lia). destruct (Nat.eqb_spec (w_req w) k); [subst; now destruct (NT n0 c)|cbn; lia].
  Qed.

  Record Inv (x : option nat) (s : late) : Prop := mkInv {
    i_conn : match l_conn s with CNew => l_trace s = [] | CUp => ~ In TLost (l_trace s) | CGone => In TLost (l_trace s) end;
    i_who : l_bound s = who (l_trace s);
    i_binds : forall n, In n (fst (whos (l_trace s))) <-> exists k e au, In (TCall n k (CBind e au)) (l_trace s);
    i_req : forall k id req cs nm, came (l_trace s) k id req cs nm -> (k < l_reqs s)%nat;
    i_call : forall n k c, In (TCall n k c) (l_trace s) -> (n < l_calls s /\ k < l_reqs s)%nat;
    i_fired : forall n r, In (TFired n r) (l_trace s) -> (n < l_calls s)%nat;
    i_res : forall k, results k (l_trace s) <> [] -> (k < l_reqs s)%nat;
    i_wr : each wr (l_trace s);
    i_cd : each cd (l_trace s);
    i_tr : each truthful (l_trace s);
    i_first : tame -> each entries_first (l_trace s);
    i_two : forall k, (length (calls_for k (l_trace s)) <= 2)%nat;
    i_wait : forall n w, In (n, w) (l_wait s) -> waits (l_trace s) n w;
    i_nd : NoDup (map fst (l_wait s));
    i_ndk : NoDup (map (fun x => w_req (snd x)) (l_wait s));
    i_cbs : forall n k id attrs, In (n, (k, id, attrs)) (l_cbs s) ->
      (n < l_calls s)%nat /\ (exists tg v scope deref size time types f cs nm, came (l_trace s) k id (OSearchReq tg v scope deref size time types f attrs) cs nm) /\
      ((exists r, In (TFired n r) (l_trace s)) \/ exists w, In (n, w) (l_wait s) /\ w_req w = k);
    i_all : forall k id req cs nm, came (l_trace s) k id req cs nm -> expects_answer req \/ is_abandon req -> x <> Some k ->
      (exists n w, In (n, w) (l_wait s) /\ w_req w = k) \/ results k (l_trace s) <> [] }.

  (** One more event *)
  Lemma grow x x' s s' e : Inv x s -> l_trace s' = l_trace s ++ [e] ->
    match l_conn s' with CNew => False | CUp => ~ In TLost (l_trace s) /\ e <> TLost | CGone => In TLost (l_trace s) \/ e = TLost end ->
    l_bound s' = snd (who_step (whos (l_trace s)) e) -> (l_reqs s <= l_reqs s')%nat -> (l_calls s <= l_calls s')%nat ->
    match e with
    | TGot k _ _ _ _ => (k < l_reqs s')%nat
    | TCall n k _ => (n < l_calls s' /\ k < l_reqs s')%nat /\ (length (calls_for k (l_trace s)) < 2)%nat
    | TFired n _ => (n < l_calls s')%nat
    | _ => True
    end ->
    (forall k, result_in k e <> [] -> (k < l_reqs s')%nat) ->
    wr (l_trace s) e -> cd (l_trace s) e -> truthful (l_trace s) e -> (tame -> entries_first (l_trace s) e) ->
    (forall n w, In (n, w) (l_wait s') -> waits (l_trace s ++ [e]) n w) -> NoDup (map fst (l_wait s')) ->
    NoDup (map (fun x => w_req (snd x)) (l_wait s')) ->
    (forall n k id attrs, In (n, (k, id, attrs)) (l_cbs s') ->
      (n < l_calls s')%nat /\ (exists tg v scope deref size time types f cs nm, came (l_trace s ++ [e]) k id (OSearchReq tg v scope deref size time types f attrs) cs nm) /\
      ((exists r, In (TFired n r) (l_trace s ++ [e])) \/ exists w, In (n, w) (l_wait s') /\ w_req w = k)) ->
    (forall k id req cs nm, came (l_trace s ++ [e]) k id req cs nm -> expects_answer req \/ is_abandon req -> x' <> Some k ->
      (exists n w, In (n, w) (l_wait s') /\ w_req w = k) \/ results k (l_trace s ++ [e]) <> []) ->
    Inv x' s'.
  Proof.
    intros H T C B LR LC EV ER W CD TR EF WT N1 N2 CB AL. constructor; rewrite ?T; try assumption.
    - destruct (l_conn s'); [easy| |].
      + destruct C as (C & D). intros I. apply In_snoc in I as [I|I]; [now apply C|now symmetry in I].
      + apply In_snoc. destruct C as [C| ->]; auto.
    - unfold who. fold (whos (l_trace s ++ [e])). now rewrite whos_snoc.
    - intros n. rewrite whos_snoc, who_fst, (i_binds _ _ H). split.
      + intros [(k & e' & au & I)|(k & e' & au & ->)]; exists k, e', au; apply In_snoc; auto.
      + intros (k & e' & au & I). apply In_snoc in I as [I|I]; [left; eauto|right; eauto].
    - intros k id req cs nm I. apply In_snoc in I as [I|<-]; [apply (i_req _ _ H) in I; lia|assumption].
    - intros n k c I. apply In_snoc in I as [I|<-]; [apply (i_call _ _ H) in I; lia|tauto].
    - intros n r I. apply In_snoc in I as [I|<-]; [apply (i_fired _ _ H) in I; lia|assumption].
    - intros k. rewrite results_snoc. intros I. destruct (results k (l_trace s)) eqn:R; [now apply ER|].
      assert (k < l_reqs s)%nat by (apply (i_res _ _ H); congruence). lia.
    - apply each_snoc; [apply H|assumption].
    - apply each_snoc; [apply H|assumption].
    - apply each_snoc; [apply H|assumption].
    - intros TM. apply each_snoc; [now apply H|now apply EF].
    - intros k. rewrite calls_for_snoc, app_length. pose proof (i_two _ _ H k). destruct e; try (cbn; lia).
      destruct (Nat.eqb_spec k k0); [subst; cbn; lia|cbn; lia].
  Qed.

  (** ** The ways to go on *)
  Definition res_ok (t : list tev) (k : nat) (req op : obj) : Prop := ~ is_entry op /\ answers req op /\ truth t k req op.
  Definition fin_ok (t : list tev) (k : nat) (kd : rkind) (req : obj) (cs : option (list (pv * pv * pv))) (nm : ent -> dn) (f : fin) : Prop :=
    match f with
    | Call c g => no_critical cs /\ due io (who t) t k req nm c /\
        (forall t' n, incl t t' -> In (TCall n k c) t' -> stage_ok t' n k req g) /\
        (S (length (calls_for k t)) <= rank g)%nat /\ calm t k
    | Give None => ~ (expects_answer req \/ is_abandon req)
    | Give (Some o) => res_ok t k req o
    | Fail x m => res_ok t k req (on_error kd x m)
    end.
  Definition active (s : late) (k : nat) (id : pv) (kd : rkind) (req : obj) (cs : option (list (pv * pv * pv))) (nm : ent -> dn) : Prop :=
    came (l_trace s) k id req cs nm /\ kind_of req = Some kd /\ results k (l_trace s) = [] /\ forall n w, In (n, w) (l_wait s) -> w_req w <> k.

  Lemma ri_write k' k id op b : ~ is_entry op -> result_in k' (TWrite k id op b) = if Nat.eqb k' k then [op] else [].
  Proof. destruct op; cbn; tauto. Qed.
  Lemma up_trace x s k id req cs nm : Inv x s -> came (l_trace s) k id req cs nm -> l_conn s <> CNew.
  Proof. intros H C E. pose proof (i_conn _ _ H) as D. rewrite E in D. unfold came in C. rewrite D in C. destruct C. Qed.

  Lemma respond_ok k id kd req cs nm op s : Inv (Some k) s -> active s k id kd req cs nm -> res_ok (l_trace s) k req op ->
    Inv None (respond k id op s).
  Proof.
    intros H (C & K & R & W) (NE & A & T). pose proof (up_trace _ _ _ _ _ _ _ H C) as NN. pose proof (i_conn _ _ H) as CN.
    assert (GEN : forall e, (forall k', result_in k' e = if Nat.eqb k' k then [op] else []) -> e <> TLost -> wr (l_trace s) e ->
      cd (l_trace s) e -> who_step (whos (l_trace s)) e = whos (l_trace s) -> match e with TGot _ _ _ _ _ | TCall _ _ _ | TFired _ _ => False | _ => True end ->
      Inv None (emit e s)).
    { intros e RI NL WR CD WH NK. pose proof (i_req _ _ H _ _ _ _ _ C) as LT.
      apply (grow (Some k) None s _ e H); cbn [emit l_trace l_conn l_bound l_reqs l_calls l_wait l_cbs]; try reflexivity; try assumption; try lia.
      - destruct (l_conn s); auto.
      - rewrite WH. apply (i_who _ _ H).
      - destruct e; easy.
      - intros k'. rewrite RI. destruct (Nat.eqb_spec k' k); [subst; auto|easy].
      - intros k' op' id' req' cs' nm' E C'. rewrite RI in E. destruct (Nat.eqb_spec k' k); [|discriminate]. injection E as <-. subst k'.
        destruct (came_once _ _ _ _ _ _ _ _ _ _ (i_cd _ _ H) C C') as (_ & <- & _). assumption.
      - intros _. destruct e; try exact I. cbn [entries_first]. destruct op0; try exact I. specialize (RI k). rewrite Nat.eqb_refl in RI. discriminate RI.
      - intros n w I. apply waits_snoc; [apply (i_wait _ _ H), I|destruct e; easy| |destruct e; easy|destruct e; easy].
        rewrite RI. destruct (Nat.eqb_spec (w_req w) k); [now apply W in I|reflexivity].
      - apply H.
      - apply H.
      - intros n k' id' attrs I. destruct (i_cbs _ _ H _ _ _ _ I) as (L & (tg & v & sc & de & si & ti & ty & f & cs' & nm' & C') & F).
        split; [assumption|]. split; [exists tg, v, sc, de, si, ti, ty, f, cs', nm'; apply In_snoc; now left|].
        destruct F as [(r & F)|F]; [left; exists r; apply In_snoc; now left|now right].
      - intros k' id' req' cs' nm' C' X _. apply In_snoc in C' as [C'|C']; [|subst e; easy]. destruct (Nat.eq_dec k' k) as [->|N].
        + right. rewrite results_snoc, RI, Nat.eqb_refl. now destruct (results k (l_trace s)).
        + destruct (i_all _ _ H _ _ _ _ _ C' X) as [Q|Q]; [congruence|now left|right]. rewrite results_snoc. now destruct (results k' (l_trace s)). }
    unfold respond, queued. destruct (l_conn s) eqn:LC; [easy| |].
    - destruct (toWire _) as [b|x] eqn:TW; apply GEN; try easy; intros; rewrite ?ri_write by assumption; try reflexivity.
      + split; [assumption|]. split; [assumption|]. exists req, cs, nm. split; [assumption|]. right. auto.
      + exists id, req, cs, nm. auto 7.
    - apply GEN; try easy. exists id, req, cs, nm. auto 7.
  Qed.

  Lemma wait_call t n w : waits t n w -> exists c, In (TCall n (w_req w) c) t.
  Proof.
    intros (req & cs & nm & _ & _ & _ & S & _). destruct (w_stage w); cbn [stage_ok] in S;
      repeat match goal with H : _ /\ _ |- _ => destruct H | H : exists _, _ |- _ => destruct H end; eauto.
  Qed.
  Lemma calls_ok k id kd req cs nm c g s : Inv (Some k) s -> active s k id kd req cs nm -> fin_ok (l_trace s) k kd req cs nm (Call c g) ->
    Inv None (calls k id kd c g s).
  Proof.
    intros H (C & K & R & W) (NC & D & ST & L & CA). pose proof (up_trace _ _ _ _ _ _ _ H C) as NN. pose proof (i_conn _ _ H) as CN.
    pose proof (i_req _ _ H _ _ _ _ _ C) as LT. set (n := l_calls s).
    assert (FR : forall k' c', ~ In (TCall n k' c') (l_trace s)) by (intros k' c' I; apply (i_call _ _ H) in I; unfold n in I; lia).
    assert (NF : forall r, ~ In (TFired n r) (l_trace s)) by (intros r I; apply (i_fired _ _ H) in I; unfold n in I; lia).
    assert (NEW : waits (l_trace s ++ [TCall n k c]) n (mkWait k id kd g)).
    { exists req, cs, nm. cbn [w_req w_id w_kind w_stage]. split; [apply In_snoc; now left|]. split; [assumption|]. split; [assumption|].
      split; [apply ST; [apply incl_snoc|apply In_snoc; now right]|]. split; [intros r I; apply In_snoc in I as [I|I]; [now apply NF in I|discriminate]|].
      split; [rewrite results_snoc, R; reflexivity|]. split.
      - intros n' c' r I J. apply In_snoc in J as [J|J]; [|discriminate]. apply In_snoc in I as [I|[= -> ->]]; [eapply CA; eassumption|now apply NF in J].
      - rewrite calls_for_snoc, Nat.eqb_refl, app_length. cbn [length]. lia. }
    assert (GF : forall attrs, g = GFound attrs -> exists tg v sc de si ti ty f, req = OSearchReq tg v sc de si ti ty f attrs).
    { intros attrs ->. destruct (ST (l_trace s ++ [TCall n k c]) n (incl_snoc _ _) ltac:(apply In_snoc; now right)) as (e & f & sc & de & si & ti & ty & tg & v & _ & ->). eauto 10. }
    unfold calls. fold n.
    apply (grow (Some k) None s _ (TCall n k c) H); cbn [l_trace l_conn l_bound l_reqs l_calls l_wait l_cbs]; try reflexivity; try easy; try lia.
    - destruct (l_conn s); [easy|now split|now left].
    - rewrite (i_who _ _ H). unfold who. fold (whos (l_trace s)). now destruct c.
    - split; [unfold n; lia|]. assert (rank g <= 2)%nat by (destruct g; cbn; lia). lia.
    - split; [assumption|]. split; [assumption|]. exists id, req, cs, nm. auto.
    - intros n' w [[= <- <-]|I]; [exact NEW|]. apply waits_snoc; [apply (i_wait _ _ H), I|easy|reflexivity| |easy].
      intros n'' c' [= _ E _]. symmetry in E. revert E. apply (W _ _ I).
    - cbn [map fst]. constructor; [|apply H]. intros I. apply in_map_iff in I as ((n' & w) & E & I). cbn in E. subst n'.
      apply (i_wait _ _ H) in I. destruct (wait_call _ _ _ I) as (c' & J). now apply FR in J.
    - cbn [map snd w_req]. constructor; [|apply H]. intros I. apply in_map_iff in I as ((n' & w) & E & I). cbn in E. now apply W in I.
    - intros n' k' id' attrs I.
      assert (OLD : In (n', (k', id', attrs)) (l_cbs s) -> (n' < S n)%nat /\ (exists tg v scope deref size time types f cs nm, came (l_trace s ++ [TCall n k c]) k' id' (OSearchReq tg v scope deref size time types f attrs) cs nm) /\
        ((exists r, In (TFired n' r) (l_trace s ++ [TCall n k c])) \/ exists w, In (n', w) ((n, mkWait k id kd g) :: l_wait s) /\ w_req w = k')).
      { intros J. destruct (i_cbs _ _ H _ _ _ _ J) as (L' & (tg & v & sc & de & si & ti & ty & f & cs' & nm' & C') & F). split; [unfold n; lia|].
        split; [exists tg, v, sc, de, si, ti, ty, f, cs', nm'; apply In_snoc; now left|].
        destruct F as [(r & F)|(w & F & E)]; [left; exists r; apply In_snoc; now left|right; exists w; split; [now right|assumption]]. }
      destruct g; try (now apply OLD). destruct I as [[= <- <- <- <-]|I]; [|now apply OLD]. split; [lia|].
      destruct (GF _ eq_refl) as (tg & v & sc & de & si & ti & ty & f & ->). split; [exists tg, v, sc, de, si, ti, ty, f, cs, nm; apply In_snoc; now left|].
      right. eexists. split; [now left|reflexivity].
    - intros k' id' req' cs' nm' C' X _. apply In_snoc in C' as [C'|C']; [|discriminate]. destruct (Nat.eq_dec k' k) as [->|N].
      + left. exists n, (mkWait k id kd g). split; [now left|reflexivity].
      + destruct (i_all _ _ H _ _ _ _ _ C' X) as [(n' & w & I & E)|Q]; [congruence|left; exists n', w; split; [now right|assumption]|right]. rewrite results_snoc. cbn. now rewrite app_nil_r.
  Qed.

  Lemma finish_ok k id kd req cs nm f s : Inv (Some k) s -> active s k id kd req cs nm -> fin_ok (l_trace s) k kd req cs nm f ->
    Inv None (finish k id kd f s).
  Proof.
    intros H A F. destruct f as [c g|[o|]|x m]; cbn [finish].
    - eapply calls_ok; eassumption.
    - eapply respond_ok; eassumption.
    - destruct H. constructor; try assumption. intros k' id' req' cs' nm' C' X _. destruct (Nat.eq_dec k' k) as [->|N].
      + destruct A as (C & _). destruct (came_once _ _ _ _ _ _ _ _ _ _ i_cd0 C C') as (_ & <- & _). now apply F in X.
      + apply (i_all0 _ _ _ _ _ C' X). congruence.
    - eapply respond_ok; eassumption.
  Qed.

  (** Events that concern no result and no call *)
  Definition quiet (e : tev) : Prop :=
    match e with TWrite _ _ op _ => is_entry op | TRefused _ _ | TClose _ | TCrash _ | TNotice _ => True | _ => False end.
  Lemma quiet_res e k : quiet e -> result_in k e = [].
  Proof. destruct e; cbn; try easy. now destruct op. Qed.
  Lemma quiet_ok x s e : Inv x s -> quiet e -> wr (l_trace s) e -> (tame -> entries_first (l_trace s) e) -> l_conn s <> CNew -> Inv x (emit e s).
  Proof.
    intros H Q W EF NN. pose proof (i_conn _ _ H) as CN.
    apply (grow x x s _ e H); cbn [emit l_trace l_conn l_bound l_reqs l_calls l_wait l_cbs]; try reflexivity; try lia; try assumption.
    - destruct (l_conn s); [easy| |now left]. split; [assumption|]. now destruct e.
    - rewrite (i_who _ _ H). now destruct e.
    - now destruct e.
    - intros k. now rewrite quiet_res.
    - now destruct e.
    - intros k op id req cs nm E. now rewrite quiet_res in E.
    - intros n w I. apply waits_snoc; [apply (i_wait _ _ H), I|now destruct e|now apply quiet_res|now destruct e|now destruct e].
    - apply H.
    - apply H.
    - intros n k id attrs I. destruct (i_cbs _ _ H _ _ _ _ I) as (L' & (tg & v & sc & de & si & ti & ty & f & cs' & nm' & C') & F). split; [assumption|].
      split; [exists tg, v, sc, de, si, ti, ty, f, cs', nm'; apply In_snoc; now left|].
      destruct F as [(r & F)|F]; [left; exists r; apply In_snoc; now left|now right].
    - intros k id req cs nm C X Y. apply In_snoc in C as [C|C]; [|now subst e]. rewrite results_snoc, quiet_res, app_nil_r by assumption. now apply (i_all _ _ H k id req cs nm).
  Qed.

  Definition next_ok (t : list tev) (k : nat) (kd : rkind) (req : obj) (cs : option (list (pv * pv * pv))) (nm : ent -> dn) (nx : next) : Prop :=
    match n_reply nx with
    | None => if n_close nx then n_fin nx = Give None /\ ~ (expects_answer req \/ is_abandon req) else fin_ok t k kd req cs nm (n_fin nx)
    | Some o => n_close nx = false /\ n_fin nx = done KSearchDone /\ is_search req /\ unasked req /\ is_entry o /\
        entry_for lower oc_first root req nm o /\ forall n c, ~ In (TCall n k c) t
    end.
  Definition bound_by (nx : next) (s : late) : late := match n_bound nx with Some o => set_bound_user o s | None => s end.
  Lemma unasked_truth t k req op : unasked req -> (forall n c, ~ In (TCall n k c) t) -> truth t k req op.
  Proof. intros U N. split; [intros n c x m (I & _); now apply N in I|]. auto 6. Qed.
  Lemma search_error_ok req kd x m : is_search req -> kind_of req = Some kd -> ~ is_entry (on_error kd x m) /\ answers req (on_error kd x m).
  Proof. destruct req; cbn; try tauto. intros _ [= <-]. destruct x; cbn; (split; [tauto|left; exact I]). Qed.
  Lemma perform_ok k id kd req cs nm nx s : Inv (Some k) (bound_by nx s) -> active s k id kd req cs nm -> next_ok (l_trace s) k kd req cs nm nx ->
    Inv None (perform text k id kd nx s).
  Proof.
    intros H A N. unfold perform. fold (bound_by nx s). set (s1 := bound_by nx s) in *.
    assert (TS : l_trace s1 = l_trace s) by (unfold s1, bound_by; now destruct (n_bound nx)).
    assert (WS : l_wait s1 = l_wait s) by (unfold s1, bound_by; now destruct (n_bound nx)).
    assert (A1 : active s1 k id kd req cs nm) by (unfold active in *; now rewrite TS, WS). clear A.
    rewrite <- TS in N. clearbody s1. clear s TS WS. unfold next_ok in N.
    pose proof (up_trace _ _ _ _ _ _ _ H (proj1 A1)) as NN.
    destruct (n_reply nx) as [o|].
    - destruct N as (-> & FN & SR & U & E & EF & NC). cbn match. rewrite FN. destruct A1 as (C & K & R & W).
      assert (AC : forall e, quiet e -> active (emit e s1) k id kd req cs nm).
      { intros e Q. split; [apply In_snoc; now left|]. split; [assumption|]. split; [cbn [emit l_trace]; rewrite results_snoc, R; now apply quiet_res|exact W]. }
      assert (NC' : forall e, quiet e -> forall n c, ~ In (TCall n k c) (l_trace s1 ++ [e])).
      { intros e Q n c I. apply In_snoc in I as [I|I]; [now apply NC in I|now subst e]. }
      destruct (queued s1 id o) as [b|x] eqn:Q.
      + unfold queued in Q. destruct (l_conn s1) eqn:LC; try discriminate. pose proof (i_conn _ _ H) as CN. rewrite LC in CN.
        assert (QT : quiet (TWrite k id o b)) by exact E.
        eapply finish_ok; [apply quiet_ok; [exact H|exact QT| | |congruence]|now apply AC|].
        * split; [assumption|]. split; [assumption|]. exists req, cs, nm. split; [assumption|]. left. now split.
        * intros _. cbn [entries_first]. now destruct o.
        * split; [cbn; tauto|]. split; [left; now destruct req|]. apply unasked_truth; [assumption|]. now apply NC'.
      + eapply finish_ok; [apply quiet_ok; [exact H|exact I|exact I|intros _; exact I|assumption]|now apply AC|].
        cbn [fin_ok fails]. destruct (search_error_ok req kd x (VBytes (text x)) SR K) as (X1 & X2). split; [exact X1|]. split; [exact X2|].
        apply unasked_truth; [assumption|]. now apply NC'.
    - destruct (n_close nx).
      + destruct N as (-> & X). apply finish_ok with (req := req) (cs := cs) (nm := nm); [apply quiet_ok; [exact H|exact I|exact I|intros _; exact I|assumption]| |exact X].
        destruct A1 as (C & K & R & W). split; [apply In_snoc; now left|]. split; [assumption|]. split; [cbn [emit l_trace]; rewrite results_snoc, R; reflexivity|exact W].
      + eapply finish_ok; eassumption.
  Qed.

  (** ** The handlers *)
  Lemma err_code kd x m : code (on_error kd x m) = match x with ELdap c => c | _ => 2 end.
  Proof. destruct x, kd; reflexivity. Qed.
  Lemma err_answers req kd x m : kind_of req = Some kd -> expects_answer req \/ is_abandon req -> ~ is_entry (on_error kd x m) /\ answers req (on_error kd x m).
  Proof.
    intros K [E|(t & z & ->)].
    - split; [destruct x, kd; cbn; tauto|left]. destruct req; cbn in *; try tauto; try (destruct k; try tauto); injection K as <-; destruct x; exact I.
    - cbn in K. injection K as <-. split; [destruct x; cbn; tauto|right]. split; [eexists; eexists; reflexivity|].
      destruct x; cbn [on_error fail_obj]; unfold ext_obj; do 6 eexists; reflexivity.
  Qed.
  (** A result without any call *)
  Lemma own_truth t k req op : (forall n c, ~ In (TCall n k c) t) -> (code op = 0 -> unasked req) -> code op <> 5 -> code op <> 6 -> truth t k req op.
  Proof. intros N Z F S. split; [intros n c x m (I & _); now apply N in I|]. intros _. split; [intros E; left; auto|]. split; intros E; congruence. Qed.
  (** An exception of the server's own *)
  Definition own (x : exn) : Prop := forall c, x = ELdap c -> c <> 0 /\ c <> 5 /\ c <> 6.
  Lemma own_fails t k kd req cs nm x : kind_of req = Some kd -> expects_answer req \/ is_abandon req -> (forall n c, ~ In (TCall n k c) t) -> own x ->
    fin_ok t k kd req cs nm (fails text x).
  Proof.
    intros K E N O. cbn [fin_ok fails]. destruct (err_answers req kd x (VBytes (text x)) K E) as (X1 & X2). split; [exact X1|]. split; [exact X2|].
    apply own_truth; [assumption| | |]; rewrite err_code; destruct x; intros ?; exfalso; try lia; destruct (O _ eq_refl) as (? & ? & ?); lia.
  Qed.
  Lemma nl_own {A} (r : res A) x : nl r -> r = Err x -> own x.
  Proof. intros N E c ->. now apply N in E. Qed.
  Lemma check_own cs x : checkControls cs = Err x -> own x.
  Proof. intros E. apply check_err in E as [-> | ->]; intros c [= <-]; lia. Qed.

  (** The start of a request: nothing has been asked for it *)
  Definition fresh (t : list tev) (k : nat) : Prop := forall n c, ~ In (TCall n k c) t.
  Lemma fresh_calls t k : fresh t k -> calls_for k t = [].
  Proof.
    unfold fresh. induction t as [|e t IH]; intros F; cbn; [reflexivity|]. fold (calls_for k t). rewrite IH by (intros n c I; apply (F n c); now right).
    destruct e; try reflexivity. destruct (Nat.eqb_spec k k0); [subst; exfalso; apply (F n c); now left|reflexivity].
  Qed.
  Lemma fresh_calm t k : fresh t k -> calm t k.
  Proof. intros F n c r I. now apply F in I. Qed.
  Lemma fresh_call t k kd req cs nm c g : fresh t k -> no_critical cs -> due io (who t) t k req nm c -> rank g = 1%nat ->
    (forall t' n, incl t t' -> In (TCall n k c) t' -> stage_ok t' n k req g) -> fin_ok t k kd req cs nm (Call c g).
  Proof. intros F N D R S. repeat split; try assumption; [|now apply fresh_calm]. rewrite fresh_calls, R by assumption. cbn. lia. Qed.
  Lemma next_go t k kd req cs nm f : fin_ok t k kd req cs nm f -> next_ok t k kd req cs nm (go f).
  Proof. exact (fun H => H). Qed.
  Ltac ctl CK := match goal with |- context [attempt text (checkControls ?cs) _] =>
    destruct (checkControls cs) as [[]|] eqn:CK; cbn [attempt]; [apply check_iff in CK|apply next_go, own_fails; auto; [now left|now apply check_own in CK]] end.
  Ltac rd E := match goal with |- context [attempt text ?r _] =>
    destruct r eqn:E; cbn [attempt]; [|apply next_go, own_fails; auto; [now left|eapply nl_own; [|exact E]]] end.
  Ltac own2 := apply next_go, own_fails; auto; [now left|intros ? [= <-]; lia].

  Lemma bind_ok t k cs nm tag version d auth : fresh t k ->
    next_ok t k RBind (OBindReq tag version d auth) cs nm (late_bind io text version d auth cs).
  Proof.
    intros F. unfold late_bind. destruct version as [|z|b]; [own2| |own2].
    assert (G : z = 3 \/ z <> 3) by lia. destruct G as [->|G].
    - ctl CK. assert (CALL : next_ok t k RBind (OBindReq tag (VInt 3) d auth) cs nm (attempt text (to_dn io d) (fun d => go (Call (CLookup d) (GBind auth))))).
      { rd E; [|now apply nl_to_dn]. apply next_go, fresh_call; auto. intros t' n I J. split; eauto. }
      destruct d as [|z|[|b d]]; try exact CALL.
      split; [cbn; tauto|]. split; [left; exact I|]. apply own_truth; [assumption|now intros _|discriminate|discriminate].
    - replace (match z with 3 => _ | _ => _ end) with (go (fails text (ELdap 2))); [own2|]. destruct z as [|[[]|[]|]|]; congruence.
  Qed.
  Lemma search_ok t k cs nm tag base scope deref size time types f attrs : fresh t k ->
    next_ok t k RSearch (OSearchReq tag base scope deref size time types f attrs) cs nm (late_search io text root nm base scope deref size time types f attrs cs).
  Proof.
    intros F. unfold late_search. ctl CK.
    set (dse := match base, scope with VBytes [], VInt 0 => is_match_all f | _, _ => Ok false end).
    assert (D : unasked (OSearchReq tag base scope deref size time types f attrs) \/ dse = Ok false).
    { destruct base as [|z|[|b l]]; auto. destruct scope as [|[]|]; auto. left. exact I. }
    assert (CALL : next_ok t k RSearch (OSearchReq tag base scope deref size time types f attrs) cs nm
      (attempt text (to_dn io base) (fun d => go (Call (CLookup d) (GSearch f attrs scope deref size time types))))).
    { rd E; [|now apply nl_to_dn]. apply next_go, fresh_call; auto. intros t' n I J. split; eauto. }
    destruct dse as [[]|x]; cbn [attempt]; [|exact CALL|].
    - destruct D as [D|D]; [|discriminate]. split; [reflexivity|]. split; [reflexivity|]. split; [exact I|]. split; [assumption|]. split; [exact I|]. split; [|assumption].
      exists tag, base, scope, deref, size, time, types, f, attrs. split; [reflexivity|]. right. now split.
    - destruct D as [D|D]; [|discriminate]. apply next_go. cbn [fin_ok fails].
      destruct (search_error_ok (OSearchReq tag base scope deref size time types f attrs) RSearch x (VBytes (text x)) I eq_refl) as (X1 & X2).
      split; [exact X1|]. split; [exact X2|]. now apply unasked_truth.
  Qed.
  Lemma password_ok t k cs nm tag name value bound : fresh t k -> bound = who t ->
    next_ok t k RExtended (OExtReq tag name value) cs nm (late_extended text nm bound name value cs).
  Proof.
    intros F B. unfold late_extended. ctl CK. destruct name as [| |n]; [own2|own2|]. destruct (bytes_eqb_spec n pw_oid) as [->|]; [|own2].
    rd E; [|destruct value; [nlc|nlc|apply decs_nl, fromBER_nl]]. destruct a as [|data [|]]; [own2| |own2].
    assert (BAD : forall c, 0 < c -> c <> 5 -> c <> 6 -> next_ok t k RExtended (OExtReq tag (VBytes pw_oid) value) cs nm (go (ext_failed pw_oid (ELdap c) (VBytes (text (ELdap c)))))).
    { intros c C1 C2 C3. apply next_go. cbn [fin_ok ext_failed]. split; [cbn; tauto|]. split; [left; exact I|]. apply own_truth; [assumption| | |]; cbn; intros; lia. }
    unfold late_password. destruct data; cbn [bind]; try (apply BAD; lia).
    destruct (pw_parts l (mkPw None None None)) as [p|x] eqn:P; cbn [bind]; [|apply pw_parts_err in P; subst; apply BAD; lia].
    destruct bound as [e|]; [|apply BAD; lia].
    assert (SAME : (exists x, (match p_user p with None => Ok true | Some u => do t <- utf8_encode (dn_text (nm e)); Ok (bytes_eqb t u) end) = Err x /\ forall c, x <> ELdap c) \/
      exists b, (match p_user p with None => Ok true | Some u => do t <- utf8_encode (dn_text (nm e)); Ok (bytes_eqb t u) end) = Ok b /\
        (b = true -> p_user p = None \/ exists me, p_user p = Some me /\ utf8_encode (dn_text (nm e)) = Ok me)).
    { destruct (p_user p) as [u|]; [|right; eauto]. destruct (utf8_encode (dn_text (nm e))) as [me|x] eqn:U; cbn [bind].
      - right. eexists. split; [reflexivity|]. intros EQ. right. exists u. split; [reflexivity|]. destruct (bytes_eqb_spec me u); [congruence|discriminate].
      - left. exists x. split; [reflexivity|]. intros c ->. revert U. generalize (dn_text (nm e)). intros s. induction s as [|ch s IH]; cbn [utf8_encode]; [discriminate|].
        unfold utf8_char. repeat (destruct (_ : bool)); cbn [bind]; try discriminate; destruct (utf8_encode s); cbn [bind]; try discriminate; exact IH. }
    destruct SAME as [(x & -> & NL)|(b & -> & SM)]; cbn [bind].
    - apply next_go. replace (ext_failed pw_oid x (VBytes (text x))) with (fails text x) by (destruct x; try reflexivity; now destruct (NL code)).
      apply own_fails; auto; [now left|]. intros c ->. now destruct (NL c).
    - destruct b; cbn [negb]; [|apply BAD; lia]. destruct (p_old p) as [|] eqn:PO; [apply BAD; lia|]. destruct (p_new p) as [new|] eqn:PN; [|apply BAD; lia].
      apply next_go, fresh_call; auto; [|intros t' n I J; do 5 eexists; split; [exact J|reflexivity]].
      cbn [due]. split; [now symmetry|]. apply (pw_parts_ok io (fun b => b)) in P as (IP & PU & PO' & PN'). cbn [p_user p_old p_new olist app] in PU, PO', PN'.
      assert (AS : forall me, (p_user p = None \/ p_user p = Some me) -> asks_new_password value me new).
      { intros me M. destruct value as [| |b]; try discriminate. exists b, k0, tag0, l. split; [reflexivity|]. split; [assumption|].
        split; [exact IP|]. rewrite PO in PO'. rewrite PN in PN'. split; [assumption|]. split; [assumption|]. destruct M as [M|M]; rewrite M in PU; auto. }
      destruct (SM eq_refl) as [M|(me & M & U)].
      + exists tag, value, []. split; [reflexivity|]. split; [apply AS; now left|]. right. intros me'. apply AS. now left.
      + exists tag, value, me. split; [reflexivity|]. split; [apply AS; now right|]. now left.
  Qed.

  Lemma handler_ok t k kd req cs nm bound : fresh t k -> kind_of req = Some kd -> (match req with OExtReq _ _ _ => bound = who t | _ => True end) ->
    next_ok t k kd req cs nm (late_handler io text root nm bound req cs).
  Proof.
    intros F K B. destruct req; try discriminate K; cbn [late_handler]; match type of B with True => clear B | _ => idtac end.
    - (* abandon *) destruct k0; try discriminate K. apply next_go. split; [cbn; tauto|]. split.
      + right. split; [eexists; eexists; reflexivity|]. do 6 eexists. reflexivity.
      + apply own_truth; [assumption|discriminate|discriminate|discriminate].
    - (* delete *) destruct k0; try discriminate K. injection K as <-. unfold late_delete. ctl CK. rd E; [|now apply nl_to_dn].
      apply next_go, fresh_call; auto. intros t' n I J. split; eauto.
    - (* unbind *) destruct k0; try discriminate K. split; [reflexivity|]. intros [[]|(? & ? & ?)]; discriminate.
    - injection K as <-. now apply bind_ok.
    - injection K as <-. now apply search_ok.
    - (* modify *) injection K as <-. unfold late_modify. ctl CK. rd E; [|now apply nl_from_ldap]. destruct a as (d, ms).
      apply next_go, fresh_call; auto. intros t' n I J. do 5 eexists. split; [exact J|reflexivity].
    - (* add *) injection K as <-. unfold late_add. ctl CK. rd E; [|apply nl_add_attrs]. rd E1; [|now apply nl_to_dn].
      destruct a0 as [|r up]; [own2|]. apply next_go, fresh_call; auto.
      + exists r. exact E1.
      + intros t' n I J. split; [eauto|]. do 5 eexists. split; [reflexivity|]. eauto.
    - (* modify DN *) injection K as <-. unfold late_modify_dn. ctl CK. rd E; [|now apply nl_to_dn].
      rd E1; [|destruct newrdn; try nlc; apply nl_bind; [apply nl_utf8_decode|intros; now apply nl_parse_rdn]].
      destruct (truthy _) eqn:TD; cbn [negb]; [|own2]. rd E2; [|destruct newSuperior; try nlc; now apply nl_to_dn].
      apply next_go, fresh_call; auto. intros t' n I J. split; [eauto|]. do 5 eexists. split; [reflexivity|]. split; [assumption|].
      destruct newrdn as [| |b]; try discriminate E1. destruct (utf8_decode b) as [u|] eqn:U; [|discriminate E1]. cbn [bind] in E1.
      exists a, b, u, a0, a1. repeat split; auto. destruct newSuperior; [left; split; [reflexivity|]; injection E2 as <-; now destruct a|right..]; (split; [discriminate|assumption]).
    - (* compare *) injection K as <-. unfold late_compare. ctl CK. rd E; [|now apply nl_to_dn].
      apply next_go, fresh_call; auto. intros t' n I J. split; eauto.
    - injection K as <-. now apply password_ok.
  Qed.

  (** ** The callbacks *)
  Ltac ne32 c := destruct c as [|p|p]; try reflexivity; do 6 (try (destruct p as [p|p|]; try reflexivity)); congruence.
  Section Resume.
    Variables (t : list tev) (n k : nat) (kd : rkind) (req : obj) (cs : option (list (pv * pv * pv))) (nm : ent -> dn).
    Hypothesis CD : each cd t.
    Hypothesis NF : forall r, ~ In (TFired n r) t.
    Hypothesis KD : kind_of req = Some kd.
    Hypothesis NC : no_critical cs.
    Hypothesis CA : calm t k.

    Lemma t_err c0 x m op : In (TCall n k c0) t -> code op = failure_code req c0 x -> truth (t ++ [TFired n (DErr x m)]) k req op.
    Proof.
      intros I0 H. split.
      - intros n' c x' m' (I & J). apply In_snoc in I as [I|I]; [|discriminate]. apply In_snoc in J as [J|[= -> -> ->]].
        + destruct (CA _ _ _ I J). discriminate.
        + destruct (call_once _ _ _ _ _ _ CD I I0) as (_ & ->). assumption.
      - intros N. exfalso. apply (N n c0 x m). split; apply In_snoc; auto.
    Qed.
    Lemma t_ok o op : 
      (code op = 0 -> unasked req \/ exists o', worked (t ++ [TFired n (DOk o)]) k req o') ->
      (code op = 6 -> unasked req \/ exists e, worked (t ++ [TFired n (DOk o)]) k req (Some e)) ->
      (code op = 5 -> unasked req \/ worked (t ++ [TFired n (DOk o)]) k req None) -> truth (t ++ [TFired n (DOk o)]) k req op.
    Proof.
      intros A B C. split; [|auto]. intros n' c x' m' (I & J). apply In_snoc in I as [I|I]; [|discriminate]. apply In_snoc in J as [J|J]; [|discriminate].
      destruct (CA _ _ _ I J). discriminate.
    Qed.
    Lemma w_ok c0 o : In (TCall n k c0) t -> main_call req c0 -> match req with OBindReq _ _ _ _ | OExtReq _ _ _ => o <> None | _ => True end ->
      worked (t ++ [TFired n (DOk o)]) k req o.
    Proof. intros I M N. exists n, c0. split; [split; apply In_snoc; auto|]. split; assumption. Qed.
    Lemma f_ok d e : In (TCall n k (CLookup d)) t -> found (t ++ [TFired n (DOk (Some e))]) k e.
    Proof. intros I. exists n, d. split; apply In_snoc; auto. Qed.
    Lemma c_ok o c g : (length (calls_for k t) <= 1)%nat -> rank g = 2%nat -> due io (who (t ++ [TFired n (DOk o)])) (t ++ [TFired n (DOk o)]) k req nm c ->
      (forall t' n', In (TCall n' k c) t' -> stage_ok t' n' k req g) -> fin_ok (t ++ [TFired n (DOk o)]) k kd req cs nm (Call c g).
    Proof.
      intros L R D S. split; [assumption|]. split; [assumption|]. split; [intros t' n' _; apply S|]. split.
      - rewrite calls_for_snoc, app_nil_r, R. lia.
      - intros n' c' r I J. apply In_snoc in I as [I|I]; [|discriminate]. apply In_snoc in J as [J|[= -> ->]]; [eapply CA; eassumption|eauto].
    Qed.
    (** A failure of the directory, and an exception of a callback *)
    Lemma x_err c0 x m : In (TCall n k c0) t -> expects_answer req -> match x with ELdap c => c | _ => 2 end = failure_code req c0 x ->
      fin_ok (t ++ [TFired n (DErr x m)]) k kd req cs nm (Fail x m).
    Proof.
      intros I E F. cbn [fin_ok]. destruct (err_answers req kd x m KD (or_introl E)) as (X1 & X2). split; [exact X1|]. split; [exact X2|].
      eapply t_err; [exact I|]. now rewrite err_code.
    Qed.
    Lemma x_none c0 o : In (TCall n k c0) t -> expects_answer req -> fin_ok (t ++ [TFired n (DOk o)]) k kd req cs nm (fails text EAttr).
    Proof.
      intros I E. cbn [fin_ok fails]. destruct (err_answers req kd EAttr (VBytes (text EAttr)) KD (or_introl E)) as (X1 & X2). split; [exact X1|]. split; [exact X2|].
      apply t_ok; rewrite err_code; discriminate.
    Qed.

  End Resume.
    Lemma resume_ok t n k kd req cs nm g r nm' : each cd t -> kind_of req = Some kd -> no_critical cs -> calm t k -> stage_ok t n k req g -> (length (calls_for k t) <= rank g)%nat ->
      next_ok (t ++ [TFired n r]) k kd req cs nm (resume text nm' g r).
    Proof.
      intros CD KD NC CA ST L.
      pose proof (t_err t n k req CD CA) as t_err. pose proof (t_ok t n k req CA) as t_ok.
      pose proof (c_ok t n k kd req cs nm NC CA) as c_ok. pose proof (x_err t n k kd req cs nm CD KD CA) as x_err. pose proof (x_none t n k kd req cs nm KD CA) as x_none.
      destruct g; cbn [stage_ok rank] in ST, L.
      - (* bind, looked up *)
        destruct ST as ((d & I0) & tg & v & ->).
        destruct r as [[e|]|x m]; cbn [resume].
        + apply next_go. apply c_ok; auto; [|intros t' n' J; do 4 eexists; split; [exact J|reflexivity]]. split; [eapply f_ok, I0|eauto].
        + apply next_go. cbn [fin_ok fails]. injection KD as <-. split; [cbn; tauto|]. split; [left; exact I|]. apply t_ok; discriminate.
        + assert (X : x = ELdap 32 \/ (x <> ELdap 32 /\ match x with ELdap c => c | _ => 2 end = failure_code (OBindReq tg (VInt 3) v auth) (CLookup d) x)).
          { destruct x as [| | | | | | | | | | | |c|]; try (right; split; [discriminate|reflexivity]).
            destruct (Z.eq_dec c 32) as [->|N]; [now left|right]. split; [congruence|]. cbn. ne32 c. }
          destruct X as [->|(NX & X)].
          * apply next_go. cbn [fin_ok fails]. injection KD as <-. split; [cbn; tauto|]. split; [left; exact I|]. eapply t_err; [exact I0|reflexivity].
          * assert (RE : resume text nm' (GBind auth) (DErr x m) = go (Fail x m)); [|cbn [resume] in RE; rewrite RE].
            -- cbn [resume]. destruct x as [| | | | | | | | | | | |c|]; try reflexivity. ne32 c.
            -- apply next_go. eapply x_err; [exact I0|exact I|exact X].
      - (* bound *)
        destruct ST as (e & auth & tg & v & I0 & ->). destruct r as [[e'|]|x m]; cbn [resume].
        + unfold next_ok. cbn [n_reply n_close n_fin fin_ok]. injection KD as <-. split; [cbn; tauto|]. split; [left; exact I|].
          apply t_ok; try discriminate. intros _. right. exists (Some e'). eapply w_ok; [exact I0|exact I|discriminate].
        + unfold next_ok. cbn [n_reply n_close n_fin]. eapply x_none; [exact I0|exact I].
        + apply next_go. eapply x_err; [exact I0|exact I|]. now destruct x.
      - (* search, looked up *)
        destruct ST as ((d & I0) & tg & v & ->). destruct r as [o|x m]; cbn [resume]; apply next_go.
        + destruct o as [e|]; cbn [on_entry own_error fails].
          * apply c_ok; auto; [|intros t' n' J; do 9 eexists; split; [exact J|reflexivity]]. split; [eapply f_ok, I0|eauto].
          * cbn [fin_ok]. split; [cbn; tauto|]. split; [left; exact I|]. apply t_ok; discriminate.
        + destruct x; cbn [own_error fin_ok]; (split; [cbn; tauto|]; split; [left; exact I|]; eapply t_err; [exact I0|reflexivity]).
      - (* found *)
        destruct ST as (e & f & sc & de & si & ti & ty & tg & v & I0 & ->). destruct r as [o|x m]; cbn [resume]; apply next_go.
        + cbn [fin_ok done]. split; [cbn; tauto|]. split; [left; exact I|]. apply t_ok; try discriminate. intros _. right. exists o. eapply w_ok; [exact I0|exact I|exact I].
        + destruct x; cbn [own_error fin_ok]; (split; [cbn; tauto|]; split; [left; exact I|]; eapply t_err; [exact I0|reflexivity]).
      - (* compare, looked up *)
        destruct ST as ((d & I0) & tg & v & ->). destruct r as [o|x m]; cbn [resume]; apply next_go.
        + assert (BAD : fin_ok (t ++ [TFired n (DOk o)]) k kd (OCmpReq tg v ava) cs nm (own_error KCmpResp (fails text EAttr))).
          { cbn [own_error fails fin_ok]. split; [cbn; tauto|]. split; [left; exact I|]. apply t_ok; discriminate. }
          destruct ava; try exact BAD. destruct o as [e|]; cbn [on_entry]; [|exact BAD]. cbn [own_error].
          apply c_ok; auto; [|intros t' n' J; do 5 eexists; split; [exact J|reflexivity]]. split; [eapply f_ok, I0|]. do 6 eexists. split; reflexivity.
        + destruct x; cbn [own_error fin_ok]; (split; [cbn; tauto|]; split; [left; exact I|]; eapply t_err; [exact I0|reflexivity]).
      - (* compared *)
        destruct ST as (e & f & tg & v & ava & I0 & ->). destruct r as [o|x m]; cbn [resume]; apply next_go.
        + cbn [fin_ok]. split; [cbn; tauto|]. split; [left; exact I|]. destruct o as [e'|]; apply t_ok; try discriminate; intros _; right.
          * exists e'. eapply w_ok; [exact I0|exact I|exact I].
          * eapply w_ok; [exact I0|exact I|exact I].
        + destruct x; cbn [own_error fin_ok]; (split; [cbn; tauto|]; split; [left; exact I|]; eapply t_err; [exact I0|reflexivity]).
      - (* delete *)
        destruct ST as ((d & I0) & tg & b & ->). destruct r as [o|x m]; cbn [resume]; apply next_go.
        + destruct o as [e|]; cbn [on_entry]; [|eapply x_none; [exact I0|exact I]].
          apply c_ok; auto; [|intros t' n' J; do 3 eexists; split; [exact J|reflexivity]]. split; [eapply f_ok, I0|eauto].
        + eapply x_err; [exact I0|exact I|]. now destruct x.
      - destruct ST as (e & tg & b & I0 & ->). destruct r as [o|x m]; cbn [resume]; apply next_go.
        + cbn [fin_ok done]. split; [cbn; tauto|]. split; [left; exact I|]. apply t_ok; try discriminate. intros _. right. exists o. eapply w_ok; [exact I0|exact I|exact I].
        + eapply x_err; [exact I0|exact I|]. now destruct x.
      - (* add *)
        destruct ST as ((d & I0) & tg & v & l & r' & up & -> & D & -> & AA). destruct r as [o|x m]; cbn [resume]; apply next_go.
        + destruct o as [e|]; cbn [on_entry]; [|eapply x_none; [exact I0|exact I]].
          apply c_ok; auto; [|intros t' n' J; do 6 eexists; split; [exact J|reflexivity]]. split; [eapply f_ok, I0|]. do 5 eexists. eauto.
        + eapply x_err; [exact I0|exact I|]. now destruct x.
      - destruct ST as (e & rd & attrs & tg & v & l & I0 & ->). destruct r as [o|x m]; cbn [resume]; apply next_go.
        + cbn [fin_ok done]. split; [cbn; tauto|]. split; [left; exact I|]. apply t_ok; try discriminate. intros _. right. exists o. eapply w_ok; [exact I0|exact I|exact I].
        + eapply x_err; [exact I0|exact I|]. now destruct x.
      - (* move *)
        destruct ST as ((d & I0) & tg & v & rd & del & sup & -> & TD & RN). destruct r as [o|x m]; cbn [resume]; apply next_go.
        + destruct o as [e|]; cbn [on_entry]; [|eapply x_none; [exact I0|exact I]].
          apply c_ok; auto; [|intros t' n' J; do 7 eexists; split; [exact J|reflexivity]]. split; [eapply f_ok, I0|]. do 5 eexists. eauto.
        + eapply x_err; [exact I0|exact I|]. now destruct x.
      - destruct ST as (e & to & tg & v & rd & del & sup & I0 & ->). destruct r as [o|x m]; cbn [resume]; apply next_go.
        + cbn [fin_ok done]. split; [cbn; tauto|]. split; [left; exact I|]. apply t_ok; try discriminate. intros _. right. exists o. eapply w_ok; [exact I0|exact I|exact I].
        + eapply x_err; [exact I0|exact I|]. now destruct x.
      - (* modify *)
        destruct ST as (d & ms & tg & v & l & I0 & ->). destruct r as [o|x m]; cbn [resume]; apply next_go.
        + destruct o as [e|]; cbn [on_entry]; [|eapply x_none; [exact I0|exact I]].
          apply c_ok; auto; [|intros t' n' J; do 4 eexists; split; [exact J|reflexivity]]. exists n, d, ms. split; apply In_snoc; auto.
        + eapply x_err; [exact I0|exact I|]. now destruct x.
      - destruct ST as (e & tg & v & l & I0 & ->). destruct r as [o|x m]; cbn [resume]; apply next_go.
        + cbn [fin_ok done]. split; [cbn; tauto|]. split; [left; exact I|]. apply t_ok; try discriminate. intros _. right. exists o. eapply w_ok; [exact I0|exact I|exact I].
        + eapply x_err; [exact I0|exact I|]. now destruct x.
      - (* password *)
        destruct ST as (e & new & tg & n' & v & I0 & ->). destruct r as [[e'|]|x m]; cbn [resume]; apply next_go.
        + cbn [fin_ok]. split; [cbn; tauto|]. split; [left; exact I|]. apply t_ok; try discriminate. intros _. right. exists (Some e'). eapply w_ok; [exact I0|exact I|discriminate].
        + cbn [fin_ok ext_failed]. split; [cbn; tauto|]. split; [left; exact I|]. apply t_ok; discriminate.
        + destruct x; cbn [ext_failed]; try (eapply x_err; [exact I0|exact I|reflexivity]).
          cbn [fin_ok]. split; [cbn; tauto|]. split; [left; exact I|]. eapply t_err; [exact I0|reflexivity].
    Qed.

  (** ** The steps *)
  Lemma find_In {A} n (l : list (nat * A)) a : find_at n l = Some a -> In (n, a) l.
  Proof. induction l as [|(m, b) l IH]; cbn; [discriminate|]. destruct (Nat.eqb_spec n m); [intros [= ->]; subst; now left|right; auto]. Qed.
  Lemma drop_In {A} n (l : list (nat * A)) m a : In (m, a) (drop_at n l) <-> In (m, a) l /\ m <> n.
  Proof. unfold drop_at. rewrite filter_In. cbn. destruct (Nat.eqb_spec n m); cbn; split; intros (X & Y); split; auto; try discriminate; congruence. Qed.
  Lemma drop_nd {A B} (f : nat * A -> B) n l : NoDup (map f l) -> NoDup (map f (drop_at n l)).
  Proof.
    unfold drop_at. induction l as [|x l IH]; cbn; [auto|]. intros H. inversion_clear H. destruct (negb _); [|now apply IH].
    cbn. constructor; [|now apply IH]. intros I. apply H0. apply in_map_iff in I as (y & E & I). apply filter_In in I as (I & _). rewrite <- E. now apply in_map.
  Qed.
  Lemma nd_same (l : list (nat * wait)) n w n' w' : NoDup (map (fun x => w_req (snd x)) l) -> In (n, w) l -> In (n', w') l -> w_req w = w_req w' -> n = n' /\ w = w'.
  Proof.
    induction l as [|(m, v) l IH]; cbn; [easy|]. intros ND A B E. inversion_clear ND.
    assert (X : forall p q, In (p, q) l -> w_req q = w_req v -> False).
    { intros p q I Q. apply H. apply in_map_iff. exists (p, q). split; [exact Q|assumption]. }
    destruct A as [[= <- <-]|A], B as [[= <- <-]|B]; auto.
    - exfalso. now apply (X _ _ B).
    - exfalso. now apply (X _ _ A).
  Qed.

  Lemma nd_fst {A} (l : list (nat * A)) n w w' : NoDup (map fst l) -> In (n, w) l -> In (n, w') l -> w = w'.
  Proof.
    induction l as [|(m, v) l IH]; cbn; [easy|]. intros ND A1 B1. inversion_clear ND.
    assert (Y : forall q, In (n, q) l -> m = n -> False) by (intros q J ->; apply H; apply in_map_iff; now exists (n, q)).
    destruct A1 as [E|A1], B1 as [E'|B1].
    - congruence.
    - injection E as E _. now destruct (Y _ B1).
    - injection E' as E' _. now destruct (Y _ A1).
    - now apply IH.
  Qed.

  Lemma handler_bound nm b req cs st k id : kind_of req <> None ->
    match n_bound (late_handler io text root nm b req cs) with
    | Some o => snd (who_step st (TGot k id req cs nm)) = o
    | None => who_step st (TGot k id req cs nm) = st
    end.
  Proof.
    intros K. destruct req; try (cbn in K; congruence); cbn [late_handler].
    - reflexivity.
    - destruct k0; try (cbn in K; congruence). unfold late_delete. destruct (checkControls cs); cbn [attempt]; [|reflexivity]. destruct (to_dn io _); reflexivity.
    - destruct k0; try (cbn in K; congruence). reflexivity.
    - unfold late_bind. destruct version as [|z|]; try reflexivity. assert (G : z = 3 \/ z <> 3) by lia. destruct G as [->|G].
      + destruct (checkControls cs) as [[]|x] eqn:CK; cbn [attempt].
        * apply check_iff, crit_iff in CK. destruct dn as [|?|[|? ?]]; try (destruct (to_dn io _); reflexivity). cbn [n_bound who_step]. now rewrite CK.
        * cbn [n_bound go who_step]. destruct dn as [|?|[|? ?]]; try reflexivity.
          destruct (match cs with Some _ => _ | None => _ end) eqn:CR; [|reflexivity]. apply crit_iff, check_iff in CR. congruence.
      + replace (match z with 3 => _ | _ => _ end) with (go (fails text (ELdap 2))) by (destruct z as [|[[]|[]|]|]; congruence).
        cbn [n_bound go who_step]. destruct z as [|[[]|[]|]|]; congruence.
    - unfold late_search. destruct (checkControls cs); cbn [attempt]; [|reflexivity]. destruct (match baseObject with VBytes _ => _ | _ => _ end) as [[]|]; cbn [attempt]; try reflexivity.
      destruct (to_dn io _); reflexivity.
    - unfold late_modify. destruct (checkControls cs); cbn [attempt]; [|reflexivity]. destruct (from_ldap io _) as [(?, ?)|]; reflexivity.
    - unfold late_add. destruct (checkControls cs); cbn [attempt]; [|reflexivity]. destruct (add_attrs _); cbn [attempt]; [|reflexivity]. destruct (to_dn io _) as [[]|]; reflexivity.
    - unfold late_modify_dn. destruct (checkControls cs); cbn [attempt]; [|reflexivity]. destruct (to_dn io entry); cbn [attempt]; [|reflexivity].
      destruct (match newrdn with VBytes _ => _ | _ => _ end); cbn [attempt]; [|reflexivity]. destruct (negb _); [reflexivity|].
      destruct (match newSuperior with VNone => _ | _ => _ end); reflexivity.
    - unfold late_compare. destruct (checkControls cs); cbn [attempt]; [|reflexivity]. destruct (to_dn io _); reflexivity.
    - unfold late_extended. destruct (checkControls cs); cbn [attempt]; [|reflexivity]. destruct requestName; try reflexivity. destruct (bytes_eqb _ _); [|reflexivity].
      destruct (match requestValue with VBytes _ => _ | _ => _ end) as [[|? [|]]|]; cbn [attempt]; try reflexivity. destruct (late_password _ _ _) as [(?, ?)|]; reflexivity.
  Qed.
  Lemma bound_trace nx s : l_trace (bound_by nx s) = l_trace s. Proof. unfold bound_by. now destruct (n_bound nx). Qed.

  Lemma cbs_snoc e s n k id attrs : Inv None s -> In (n, (k, id, attrs)) (l_cbs s) ->
    (n < l_calls s)%nat /\ (exists tg v scope deref size time types f cs nm, came (l_trace s ++ [e]) k id (OSearchReq tg v scope deref size time types f attrs) cs nm).
  Proof.
    intros H I. destruct (i_cbs _ _ H _ _ _ _ I) as (L' & (tg & v & sc & de & si & ti & ty & f & cs' & nm' & C') & F). split; [assumption|].
    exists tg, v, sc, de, si, ti, ty, f, cs', nm'. apply In_snoc. now left.
  Qed.
  Lemma handle_ok m nm s : Inv None s -> l_conn s = CUp -> Inv None (late_handle io text root m nm s).
  Proof.
    intros H UP. assert (NN : l_conn s <> CNew) by congruence. destruct m as [| | | | | | | | |tg id0 req cs| | | | | | | | | | | |];
      try (apply quiet_ok; [exact H|exact I|exact I|intros _; exact I|exact NN]).
    cbn [late_handle]. destruct (kind_of req) as [kd|] eqn:K; [|apply quiet_ok; [exact H|exact I|exact I|intros _; exact I|exact NN]].
    assert (GEN : Inv None (perform text (l_reqs s) id0 kd (late_handler io text root nm (l_bound s) req cs)
      (mkLate (l_conn s) (l_bound s) (S (l_reqs s)) (l_calls s) (l_wait s) (l_cbs s) (l_trace s ++ [TGot (l_reqs s) id0 req cs nm])))).
    { set (k := l_reqs s). set (e := TGot k id0 req cs nm). set (nx := late_handler io text root nm (l_bound s) req cs).
      pose proof (handler_bound nm (l_bound s) req cs (whos (l_trace s)) k id0 ltac:(congruence)) as HB. fold nx in HB. fold e in HB.
      assert (FR : fresh (l_trace s) k) by (intros n c I; apply (i_call _ _ H) in I; unfold k in I; lia).
      assert (FRE : fresh (l_trace s ++ [e]) k) by (intros n c I; apply In_snoc in I as [I|I]; [now apply FR in I|discriminate]).
      assert (R0 : results k (l_trace s) = []).
      { destruct (results k (l_trace s)) eqn:R; [reflexivity|]. assert (k < l_reqs s)%nat by (apply (i_res _ _ H); congruence). unfold k in *. lia. }
      assert (W0 : forall n w, In (n, w) (l_wait s) -> w_req w <> k).
      { intros n w I E. apply (i_wait _ _ H) in I as (req' & cs' & nm' & C & _). apply (i_req _ _ H) in C. unfold k in E. lia. }
      apply perform_ok with (req := req) (cs := cs) (nm := nm).
      - assert (TE : l_trace (bound_by nx (mkLate (l_conn s) (l_bound s) (S k) (l_calls s) (l_wait s) (l_cbs s) (l_trace s ++ [e]))) = l_trace s ++ [e]) by now rewrite bound_trace.
        eapply (grow None (Some k) s _ e H TE); unfold bound_by; destruct (n_bound nx) as [o|];
          cbn [set_bound_user l_trace l_conn l_bound l_reqs l_calls l_wait l_cbs]; try (unfold k; lia); try exact I; try apply H;
          try (rewrite UP; split; [pose proof (i_conn _ _ H) as CN; rewrite UP in CN; exact CN|discriminate]);
          try (symmetry; exact HB); try (rewrite HB; apply (i_who _ _ H)); try (cbn; unfold k; lia); try (intros k'; cbn; easy).
        all: try (intros id' req' cs' nm' C; apply (i_req _ _ H) in C; unfold k in C; lia).
        all: try (intros k' op id' req' cs' nm' R; discriminate R).
        all: try (intros n w I; apply waits_snoc; [apply (i_wait _ _ H), I|easy|reflexivity|easy|easy]).
        all: try (intros n k' id' attrs I; destruct (cbs_snoc e s _ _ _ _ H I) as (X1 & X2); split; [exact X1|]; split; [exact X2|];
          destruct (i_cbs _ _ H _ _ _ _ I) as (_ & _ & [(r & F)|F]); [left; exists r; apply In_snoc; now left|now right]).
        all: intros k' id' req' cs' nm' C X NK; apply In_snoc in C as [C|[= -> _ _ _ _]]; [|congruence];
          destruct (i_all _ _ H _ _ _ _ _ C X) as [Q|Q]; [discriminate|now left|right]; rewrite results_snoc; cbn; now rewrite app_nil_r.
      - split; [apply In_snoc; now right|]. split; [assumption|]. split; [cbn [l_trace]; rewrite results_snoc, R0; reflexivity|exact W0].
      - cbn [l_trace]. apply handler_ok; [exact FRE|exact K|]. rewrite (i_who _ _ H). unfold who. fold (whos (l_trace s)). fold (whos (l_trace s ++ [e])).
        rewrite whos_snoc. now destruct req. }
    destruct id0 as [|[]|]; try exact GEN. apply quiet_ok; [exact H|exact I|exact I|intros _; exact I|exact NN].
  Qed.

  Lemma resume_bound t n k req g r nm st : stage_ok t n k req g -> each cd t ->
    (forall m, In m (fst st) <-> exists k e au, In (TCall m k (CBind e au)) t) ->
    match n_bound (resume text nm g r) with
    | Some o => snd (who_step st (TFired n r)) = o
    | None => snd (who_step st (TFired n r)) = snd st
    end.
  Proof.
    intros ST CD BI.
    assert (NB : forall c0, In (TCall n k c0) t -> (forall e au, c0 <> CBind e au) -> snd (who_step st (TFired n r)) = snd st).
    { intros c0 I0 NB. destruct r as [o|]; [|reflexivity]. cbn [who_step]. destruct (existsb (Nat.eqb n) (fst st)) eqn:E; [|reflexivity]. exfalso.
      apply existsb_exists in E as (m & I & E). apply Nat.eqb_eq in E. subst m. apply BI in I as (k' & e & au & I).
      destruct (call_once _ _ _ _ _ _ CD I I0) as (_ & <-). now apply (NB e au). }
    destruct g; cbn [stage_ok] in ST.
    2: { destruct ST as (e & auth & tg & v & I0 & _). destruct r as [[e'|]|x m]; cbn [resume n_bound go who_step]; try reflexivity;
         (replace (existsb (Nat.eqb n) (fst st)) with true; [reflexivity|]; symmetry; apply existsb_exists; exists n; split; [apply BI; eauto|apply Nat.eqb_refl]). }
    all: assert (X : snd (who_step st (TFired n r)) = snd st) by
      (repeat match goal with H : _ /\ _ |- _ => destruct H | H : exists _, _ |- _ => destruct H end; eapply NB; [eassumption|discriminate]).
    all: replace (n_bound _) with (@None (option ent)); [exact X|].
    all: destruct r as [[e|]|x m]; cbn [resume]; try reflexivity.
    all: destruct x as [| | | | | | | | | | | |c|]; try reflexivity. destruct c as [|p|p]; try reflexivity; do 6 (try (destruct p as [p|p|]; try reflexivity)).
  Qed.
  Lemma fired_ok n r nm s : Inv None s -> Inv None (fired text n r nm s).
  Proof.
    intros H. unfold fired. destruct (find_at n (l_wait s)) as [w|] eqn:FW; [|exact H]. apply find_In in FW.
    destruct (i_wait _ _ H _ _ FW) as (req & cs & nm0 & C & K & NC & ST & NF & R & CA & L).
    destruct (wait_call _ _ _ (i_wait _ _ H _ _ FW)) as (c0 & I0).
    set (k := w_req w) in *. set (e := TFired n r). set (nx := resume text nm (w_stage w) r).
    pose proof (resume_bound _ _ _ _ _ r nm (whos (l_trace s)) ST (i_cd _ _ H) (i_binds _ _ H)) as HB. fold nx in HB. fold e in HB.
    pose proof (up_trace _ _ _ _ _ _ _ H C) as NN. pose proof (i_conn _ _ H) as CN.
    pose proof (i_call _ _ H _ _ _ I0) as LT.
    apply perform_ok with (req := req) (cs := cs) (nm := nm0).
    - assert (TE : l_trace (bound_by nx (mkLate (l_conn s) (l_bound s) (l_reqs s) (l_calls s) (drop_at n (l_wait s)) (l_cbs s) (l_trace s ++ [e]))) = l_trace s ++ [e]) by now rewrite bound_trace.
      eapply (grow None (Some k) s _ e H TE); unfold bound_by; destruct (n_bound nx) as [o|];
        cbn [set_bound_user l_trace l_conn l_bound l_reqs l_calls l_wait l_cbs]; try lia; try exact I; try (apply drop_nd, H);
        try (destruct (l_conn s); [easy|now split|now left]);
        try (symmetry; exact HB); try (rewrite HB; apply (i_who _ _ H)); try (cbn; lia); try (intros k'; cbn; easy).
      all: try (split; [exists k, c0; exact I0|exact NF]).
      all: try (intros k' op id' req' cs' nm' RI; discriminate RI).
      all: try (intros n' w' I; apply drop_In in I as (I & NE); apply waits_snoc; [apply (i_wait _ _ H), I| |reflexivity|easy|];
        [intros r' [= E _]; congruence|intros n'' r' [= <- _] c J; destruct (call_once _ _ _ _ _ _ (i_cd _ _ H) I0 J) as (EK & _);
         destruct (nd_same _ _ _ _ _ (i_ndk _ _ H) FW I EK) as (E & _); congruence]).
      all: try (intros n' k' id' attrs I; destruct (cbs_snoc e s _ _ _ _ H I) as (X1 & X2); split; [exact X1|]; split; [exact X2|];
        destruct (i_cbs _ _ H _ _ _ _ I) as (_ & _ & [(r' & F)|(w' & F & E)]); [left; exists r'; apply In_snoc; now left|];
        destruct (Nat.eq_dec n' n) as [->|NE]; [left; exists r; apply In_snoc; now right|right; exists w'; split; [apply drop_In; now split|exact E]]).
      all: intros k' id' req' cs' nm' C' X NK; apply In_snoc in C' as [C'|C']; [|discriminate];
        destruct (i_all _ _ H _ _ _ _ _ C' X) as [(n' & w' & I & E)|Q]; [discriminate| |right; rewrite results_snoc; cbn; now rewrite app_nil_r];
        left; exists n', w'; split; [|exact E]; apply drop_In; split; [exact I|]; intros ->;
        pose proof (nd_fst _ _ _ _ (i_nd _ _ H) FW I) as EW; subst w'; unfold k in NK; congruence.
    - split; [apply In_snoc; now left|]. split; [assumption|]. split; [cbn [l_trace]; rewrite results_snoc, R; reflexivity|].
      intros n' w' I E. cbn [l_wait] in I. apply drop_In in I as (I & NE). destruct (nd_same _ _ _ _ _ (i_ndk _ _ H) FW I (eq_sym E)) as (E' & _). congruence.
    - cbn [l_trace]. apply resume_ok; auto. apply H.
  Qed.
  Lemma back_ok n e s : (tame -> forall r, ~ In (TFired n r) (l_trace s)) -> Inv None s -> Inv None (called_back lower oc_first n e s).
  Proof.
    intros TM H. unfold called_back. destruct (find_at n (l_cbs s)) as [((k, id), attrs)|] eqn:F; [|exact H]. apply find_In in F.
    destruct (i_cbs _ _ H _ _ _ _ F) as (_ & (tg & v & sc & de & si & ti & ty & f & cs & nm & C) & FI).
    pose proof (up_trace _ _ _ _ _ _ _ H C) as NN. pose proof (i_conn _ _ H) as CN.
    destruct (entry_response lower oc_first attrs e) as [o|x] eqn:ER; cbn [bind]; [|apply quiet_ok; [exact H|exact I|exact I|intros _; exact I|exact NN]].
    assert (IE : is_entry o). { unfold entry_response in ER. destruct (if _ && _ then _ else _); [|discriminate]. injection ER as <-. exact I. }
    destruct (queued s id o) as [b|x] eqn:Q; cbn [bind]; [|apply quiet_ok; [exact H|exact I|exact I|intros _; exact I|exact NN]].
    unfold queued in Q. destruct (l_conn s) eqn:LC; try discriminate. apply quiet_ok; [exact H|exact IE| | |congruence].
    2: { intros T. cbn [entries_first]. destruct o; try exact I. destruct FI as [(r & FI)|(w & FI & <-)]; [now apply (TM T) in FI|]. now destruct (i_wait _ _ H _ _ FI) as (? & ? & ? & _ & _ & _ & _ & _ & R & _). }
    split; [assumption|]. split; [assumption|]. do 3 eexists. split; [exact C|]. left. split; [assumption|]. do 9 eexists. split; [reflexivity|]. left. eauto.
  Qed.
  Lemma conn_ok s c e : Inv None s -> (e = TMade /\ c = CUp /\ l_conn s = CNew) \/ (e = TLost /\ c = CGone /\ l_conn s = CUp) -> Inv None (set_conn c e s).
  Proof.
    intros H X. pose proof (i_conn _ _ H) as CN.
    assert (E : quiet e \/ e = TMade \/ e = TLost) by tauto.
    assert (RI : forall k, result_in k e = []) by (intros k; destruct X as [(-> & _)|(-> & _)]; reflexivity).
    apply (grow None None s _ e H); unfold set_conn; cbn [l_trace l_conn l_bound l_reqs l_calls l_wait l_cbs]; try reflexivity; try lia; try apply H.
    - destruct X as [(-> & -> & L)|(-> & -> & L)]; [|now right]. rewrite L in CN. rewrite CN. split; [easy|discriminate].
    - rewrite (i_who _ _ H). destruct X as [(-> & _)|(-> & _)]; reflexivity.
    - destruct X as [(-> & _)|(-> & _)]; exact I.
    - intros k. now rewrite RI.
    - destruct X as [(-> & _)|(-> & _)]; exact I.
    - destruct X as [(-> & _)|(-> & _)]; exact I.
    - intros k op id req cs nm EQ. now rewrite RI in EQ.
    - intros _. destruct X as [(-> & _)|(-> & _)]; exact I.
    - intros n w I. apply waits_snoc; [apply (i_wait _ _ H), I|destruct X as [(-> & _)|(-> & _)]; easy|apply RI|destruct X as [(-> & _)|(-> & _)]; easy|destruct X as [(-> & _)|(-> & _)]; easy].
    - intros n k id attrs I. destruct (cbs_snoc e s _ _ _ _ H I) as (X1 & X2). split; [exact X1|]. split; [exact X2|].
      destruct (i_cbs _ _ H _ _ _ _ I) as (_ & _ & [(r & F)|F]); [left; exists r; apply In_snoc; now left|now right].
    - intros k id req cs nm C Y Z. apply In_snoc in C as [C|C]; [|destruct X as [(-> & _)|(-> & _)]; discriminate].
      rewrite results_snoc, RI, app_nil_r. now apply (i_all _ _ H k id req cs nm).
  Qed.
  Lemma step_ok s e : (tame -> forall n x, e = EEntry n x -> forall r, ~ In (TFired n r) (l_trace s)) -> Inv None s -> Inv None (lstep lower io oc_first text root s e).
  Proof.
    intros TM H. destruct e; cbn [lstep]; destruct (l_conn s) eqn:LC; try exact H; try (now apply fired_ok); try (apply back_ok; [intros T; now apply (TM T n e)|exact H]).
    - apply conn_ok; auto.
    - apply conn_ok; auto.
    - now apply handle_ok.
  Qed.
  Lemma inv_0 : Inv None late_0.
  Proof. constructor; cbn; try easy; try (intros; contradiction); try apply each_nil; try (intros _; apply each_nil); try constructor; try lia. all: intros; repeat match goal with H : exists _, _ |- _ => destruct H end; easy. Qed.
  Lemma run_snoc es e : lrun lower io oc_first text root (es ++ [e]) = lstep lower io oc_first text root (lrun lower io oc_first text root es) e.
  Proof. unfold lrun. now rewrite fold_left_app. Qed.
  Lemma run_inv es : (tame -> tidy (lrun lower io oc_first text root) es) -> Inv None (lrun lower io oc_first text root es).
  Proof.
    induction es as [|e es IH] using rev_ind; intros T; [exact inv_0|]. rewrite run_snoc. apply step_ok.
    - intros TM n x ->. apply (T TM es n x []). reflexivity.
    - apply IH. intros TM a n x b ->. apply (T TM a n x (b ++ [e])). now rewrite <- app_assoc.
  Qed.
End Late.

(** ** What follows *)
Lemma each_pre P a b : each P (a ++ b) -> each P a.
Proof. intros H x e y ->. eapply H. rewrite <- app_assoc. reflexivity. Qed.
Lemma written_one lower oc_first root k t : each (written lower oc_first root) t -> (length (results k t) <= 1)%nat.
Proof.
  induction t as [|e t IH] using rev_ind; intros H; [cbn; lia|]. specialize (IH (each_pre _ _ _ H)).
  rewrite results_snoc, app_length. pose proof (H t e [] eq_refl) as W. clear H.
  destruct e; try (cbn [result_in length]; lia); cbn [written] in W.
  - destruct W as (_ & _ & req & cs & nm & _ & [(E & _)|(E & _ & R)]).
    + destruct op; try contradiction. cbn. lia.
    + cbn [result_in]. destruct (Nat.eqb_spec k k0) as [->|N]; [rewrite R|]; destruct op; cbn; lia.
  - destruct W as (id & req & cs & nm & _ & E & _ & R & _). cbn [result_in]. destruct (Nat.eqb_spec k k0) as [->|N]; [rewrite R|]; cbn; lia.
Qed.
Lemma finish_more k id kd f s : incl (l_trace s) (l_trace (finish k id kd f s)).
Proof.
  destruct f as [c g|[o|]|x msg]; cbn [finish]; unfold calls, respond; try destruct (queued _ _ _); unfold emit; cbn [l_trace]; try apply incl_snoc; apply incl_refl.
Qed.
Lemma perform_more text k id kd nx s : incl (l_trace s) (l_trace (perform text k id kd nx s)).
Proof.
  unfold perform. set (s1 := match n_bound nx with Some o => set_bound_user o s | None => s end).
  set (s2 := if n_close nx then emit (TClose k) s1 else s1).
  assert (A : incl (l_trace s) (l_trace s2)).
  { unfold s2, s1. destruct (n_close nx), (n_bound nx); cbn [emit set_bound_user l_trace]; try apply incl_snoc; apply incl_refl. }
  apply (incl_tran A). destruct (n_reply nx) as [o|]; [|apply finish_more].
  destruct (queued s2 id o); (eapply incl_tran; [|apply finish_more]); apply incl_snoc.
Qed.
Lemma find_waiting {A} (l : list (nat * A)) n w : In (n, w) l -> exists w', find_at n l = Some w'.
Proof.
  induction l as [|[m a] l IH]; intros []; cbn.
  - injection H as -> ->. rewrite Nat.eqb_refl. eauto.
  - destruct (Nat.eqb n m); eauto.
Qed.
Lemma stage_call io t n k req g : stage_ok io t n k req g -> exists c, In (TCall n k c) t.
Proof. destruct g; cbn [stage_ok]; intros H; repeat match goal with H : _ /\ _ |- _ => destruct H | H : exists _, _ |- _ => destruct H end; eauto. Qed.
Lemma unanswered lower io oc_first text root es k id req cs names : (forall a b c, io a b <> Err (ELdap c)) ->
  came (l_trace (lrun lower io oc_first text root es)) k id req cs names -> expects_answer req -> results k (l_trace (lrun lower io oc_first text root es)) = [] ->
  exists n c, In (TCall n k c) (l_trace (lrun lower io oc_first text root es)) /\ (forall r, ~ In (TFired n r) (l_trace (lrun lower io oc_first text root es))) /\
    forall r names', In (TFired n r) (l_trace (lrun lower io oc_first text root (es ++ [EFired n r names']))).
Proof.
  intros IO C E R. pose proof (run_inv lower io oc_first text root IO False es (fun F => match F with end)) as H.
  destruct (i_all _ _ _ _ _ _ _ H k id req cs names C (or_introl E)) as [(n & w & I & W)|X]; [discriminate| |now destruct X].
  destruct (i_wait _ _ _ _ _ _ _ H _ _ I) as (req' & cs' & nm & _ & _ & _ & ST & NF & _). rewrite W in ST.
  destruct (stage_call _ _ _ _ _ _ ST) as (c & IC). exists n, c. split; [exact IC|]. split; [exact NF|].
  intros r names'. rewrite run_snoc. assert (Y : lstep lower io oc_first text root (lrun lower io oc_first text root es) (EFired n r names') = fired text n r names' (lrun lower io oc_first text root es)) by (unfold lstep; now destruct (l_conn (lrun lower io oc_first text root es))).
  rewrite Y. unfold fired. destruct (find_waiting _ _ _ I) as (w' & ->). apply perform_more. cbn [l_trace]. apply In_snoc. now right.
Qed.
