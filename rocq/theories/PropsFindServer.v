(** C105: the tool that finds servers asks for the domain of each DN, and prints the servers of each answer. *)
From Verif Require Import Base BaseFacts Utf8Model DnModel DnSpec FindServerModel FindServerSpec FindServerProofs.

(** Each DN is asked for, in order; after that, what is seen of a DN is what its first answer says, however the
    answers come; the reactor is stopped once, at the end, exactly when all are answered. *)
Theorem C105_run : forall upper io dec dns, (forall t, In t dns -> exists d, parse_dn io t = Ok d) -> dns <> [] ->
  forall l, exists asked tr stop, f_trace (find_run upper io dec dns l) = asked ++ tr ++ stop /\
    length asked = length dns /\
    (forall k dn, nth_error dns k = Some dn -> exists d name, parse_dn io dn = Ok d /\ asks upper d name /\ nth_error asked k = Some (FLookup k name)) /\
    (forall e, In e tr -> exists k, fabout e = Some k /\ (k < length dns)%nat) /\
    (forall k dn, nth_error dns k = Some dn -> told dec k dn (first_answer k l) (fview k tr)) /\
    ((forall k, (k < length dns)%nat -> first_answer k l <> None) /\ stop = [FStop] \/
     (exists k, (k < length dns)%nat /\ first_answer k l = None) /\ stop = []).
Proof. exact run_good. Qed.
Print Assumptions C105_run.
(** The exit status is 1 just when the first answer to a question is a failure. *)
Theorem C105_exit : forall upper io dec dns, (forall t, In t dns -> exists d, parse_dn io t = Ok d) -> dns <> [] ->
  forall l, find_exit (find_run upper io dec dns l) = 1%Z <-> exists k x, (k < length dns)%nat /\ first_answer k l = Some (Err x).
Proof. exact run_exit. Qed.
Print Assumptions C105_exit.
(** Without DNs nothing is done but to say how the tool is used. *)
Theorem C105_usage : forall upper io dec l, f_trace (find_run upper io dec [] l) = [FUsage] /\ find_exit (find_run upper io dec [] l) = 0%Z.
Proof. intros upper io dec l. unfold find_run. rewrite over_stays by reflexivity. split; reflexivity. Qed.
Print Assumptions C105_usage.

Definition fx_io : Z -> Z -> res Z := fun _ _ => Err EValue.
Definition fx_up (s : str) : str := map (fun c => if (97 <=? c) && (c <=? 122) then c - 32 else c) s.
(** Numbers of one digit, which is enough here. *)
Definition fx_dec (z : Z) : str := [48 + z].
Definition fx_dns : list str := [S_ "ou=p,dc=example,dc=com"; S_ "dc=org"].
Definition fx_in : list (nat * res answers) :=
  [(1%nat, Err (EUser 105)); (0%nat, Ok [[RSrv (mkSrv 1 2 (S_ "a.example.com") 3); ROther]; []; [RSrv (mkSrv 4 5 (S_ "b.example.com") 6)]]); (1%nat, Ok [])].
Example C105_case : let w := find_run fx_up fx_io fx_dec fx_dns fx_in in
  f_trace w = [FLookup 0 (S_ "_ldap._tcp.example.com"); FLookup 1 (S_ "_ldap._tcp.org"); FError 1 (EUser 105);
    FPrint 0 (S_ "ou=p,dc=example,dc=com" ++ [9] ++ S_ "pri=1 weight=2 a.example.com:3"); FPrint 0 (S_ "ou=p,dc=example,dc=com" ++ [9] ++ S_ "pri=4 weight=5 b.example.com:6"); FStop] /\ find_exit w = 1%Z.
Proof. vm_compute. split; reflexivity. Qed.
Example C105_readable : forall t, In t fx_dns -> exists d, parse_dn fx_io t = Ok d.
Proof.
  intros t [<-|[<-|[]]].
  - exists [[mkAtv (S_ "ou") (S_ "p")]; [mkAtv (S_ "dc") (S_ "example")]; [mkAtv (S_ "dc") (S_ "com")]]. vm_compute. reflexivity.
  - exists [[mkAtv (S_ "dc") (S_ "org")]]. vm_compute. reflexivity.
Qed.

(** *** What does not hold *)
(** One DN that cannot be read, and no answer to any other is printed. *)
Theorem C105_bad_dn : forall upper io dec good t rest x l, (forall u, In u good -> exists d, parse_dn io u = Ok d) -> parse_dn io t = Err x ->
  exists es, map fabout es = map Some (seq 0 (length good)) /\ (forall e, In e es -> exists k name, e = FLookup k name) /\
    f_trace (find_run upper io dec (good ++ t :: rest) l) = es ++ [FRaised (length good) x] /\ find_exit (find_run upper io dec (good ++ t :: rest) l) = 1%Z.
Proof. exact run_bad. Qed.
Print Assumptions C105_bad_dn.
Theorem C105_bad_dn_refuted : exists dns, In (S_ "dc=org") dns /\ forall l k t, ~ In (FPrint k t) (f_trace (find_run fx_up fx_io fx_dec dns l)).
Proof.
  exists [S_ "dc=org"; S_ "x"]. split; [now left|]. intros l k t H.
  destruct (run_bad fx_up fx_io fx_dec [S_ "dc=org"] (S_ "x") [] EInvalidRDN l) as (es & _ & L & T & _).
  - intros u [<-|[]]. exact (C105_readable (S_ "dc=org") (or_intror (or_introl eq_refl))).
  - vm_compute. reflexivity.
  - cbn [app] in T. rewrite T in H. apply in_app_or in H. destruct H as [H|[H|[]]]; [|discriminate]. destruct (L _ H) as (j & name & D). discriminate.
Qed.
Print Assumptions C105_bad_dn_refuted.
(** A DN that ends in no domain: the servers of a domain called None are asked for, and taken for its own. *)
Theorem C105_none_refuted : exists dn l, (exists d, parse_dn fx_io dn = Ok d /\ forall a, In [a] d -> a_type a <> S_ "dc") /\
  f_trace (find_run fx_up fx_io fx_dec [dn] l) = [FLookup 0 (S_ "_ldap._tcp.None"); FPrint 0 (dn ++ [9] ++ S_ "pri=0 weight=0 x:9"); FStop].
Proof.
  exists (S_ "o=a,c=us"), [(0%nat, Ok [[RSrv (mkSrv 0 0 (S_ "x") 9)]])]. split; [|vm_compute; reflexivity].
  exists [[mkAtv (S_ "o") (S_ "a")]; [mkAtv (S_ "c") (S_ "us")]]. split; [vm_compute; reflexivity|]. intros a [H|[H|[]]]; injection H as <-; vm_compute; discriminate.
Qed.
Print Assumptions C105_none_refuted.
