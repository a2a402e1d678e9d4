(** C101: the configuration of the DHCP server has every address once, under its network and in its group. *)
From Verif Require Import Base BaseFacts Utf8Model DnModel DnSpec EntryModel FilterTextModel LdifTreeModel UtilModel UtilSpec UtilProofs ToolsModel ToolsSpec ToolsProofs DhcpModel DhcpSpec DhcpProofs DhcpGroups DhcpPrint.
From Coq Require Import Permutation.

(** Whatever is found, if nothing is raised: what is printed is the configuration of what the entries say,
    and what is complained about is what has no place in it. [order] may be any order of the sets. *)
Theorem C101_config : forall lower io iob other repr order nets hosts groups domain out notes, (forall n g l, Permutation (order n g l) l) ->
  dhcp lower io iob other repr order nets hosts groups domain = (out, notes, None) ->
  exists rs hs gs, reads (net_entry lower) 0 nets rs /\ reads (host_entry lower repr) 0 hosts hs /\ reads (group_entry lower) 0 groups gs /\ NoDup (map h_dn hs) /\
    config io iob other repr hs gs rs domain out /\ notes_ok io iob other hs gs (every_net rs) notes.
Proof. intros lower io iob other repr order nets hosts groups domain out notes P. exact (config_written lower io iob other repr order P nets hosts groups domain out notes). Qed.
Print Assumptions C101_config.
(** And nothing is raised if the entries are complete and can be read, and no two hosts have the same name. *)
Theorem C101_runs_partial : forall lower io iob other repr order nets hosts groups domain rs hs gs,
  reads (net_entry lower) 0 nets rs -> reads (host_entry lower repr) 0 hosts hs -> reads (group_entry lower) 0 groups gs -> NoDup (map h_dn hs) ->
  (forall n, In n (every_net rs) -> net_fine io iob other n) -> (forall h, In h hs -> host_fine io iob other h) ->
  exists out notes, dhcp lower io iob other repr order nets hosts groups domain = (out, notes, None).
Proof. exact config_runs. Qed.
Print Assumptions C101_runs_partial.
(** What the entries say is one thing only: the networks, hosts and groups are determined by them. *)
Lemma says_unique lower e k vs vs' : says lower e k vs -> says lower e k vs' -> vs = vs'.
Proof. intros (o & O & ->) (o' & O' & ->). rewrite O in O'. injection O' as <-. reflexivity. Qed.
Lemma maybe_unique lower e k o o' : says_maybe lower e k o -> says_maybe lower e k o' -> o = o'.
Proof.
  destruct o as [v|], o' as [v'|]; cbn [says_maybe]; unfold says_one, lacks; intros H H'.
  - pose proof (says_unique _ _ _ _ _ H H') as E. now injection E as ->.
  - destruct H as (o & O & E). rewrite O in H'. injection H' as ->. discriminate.
  - destruct H' as (o & O & E). rewrite O in H. injection H as ->. discriminate.
  - reflexivity.
Qed.
Lemma reads_unique {A} (R : nat -> entry -> A -> Prop) (U : forall k e x x', R k e x -> R k e x' -> x = x') es : forall k xs xs', reads R k es xs -> reads R k es xs' -> xs = xs'.
Proof.
  induction es as [|e es IH]; intros k xs xs' H H'; inversion H; inversion H'; subst; [reflexivity|]. f_equal; [eapply U; eauto|eapply IH; eauto].
Qed.
Theorem C101_one_reading : forall lower repr nets hosts groups rs hs gs rs' hs' gs',
  (reads (net_entry lower) 0 nets rs -> reads (net_entry lower) 0 nets rs' -> rs = rs') /\
  (reads (host_entry lower repr) 0 hosts hs -> reads (host_entry lower repr) 0 hosts hs' -> hs = hs') /\
  (reads (group_entry lower) 0 groups gs -> reads (group_entry lower) 0 groups gs' -> gs = gs').
Proof.
  intros lower repr nets hosts groups rs hs gs rs' hs' gs'. split; [|split]; apply reads_unique.
  - intros k e [o [i d nm ad mk ro ra wi dn]] [o' [i' d' nm' ad' mk' ro' ra' wi' dn']] (A1 & A2 & A3 & A4 & A5 & A6 & A7 & A8 & A9 & A10) (B1 & B2 & B3 & B4 & B5 & B6 & B7 & B8 & B9 & B10). cbn [fst snd d_id d_dn d_name d_address d_mask d_routers d_ranges d_wins d_dns] in *.
    pose proof (says_unique _ _ _ _ _ A3 B3) as E3. injection E3 as ->. pose proof (says_unique _ _ _ _ _ A4 B4) as E4. injection E4 as ->. pose proof (says_unique _ _ _ _ _ A5 B5) as E5. injection E5 as ->.
    rewrite (says_unique _ _ _ _ _ A6 B6), (says_unique _ _ _ _ _ A7 B7), (says_unique _ _ _ _ _ A8 B8), (says_unique _ _ _ _ _ A9 B9), (maybe_unique _ _ _ _ _ A10 B10). now subst.
  - intros k e [i d nm ips ms b] [i' d' nm' ips' ms' b'] (A1 & A2 & (v & A3 & A3') & _ & (vs & A4 & A4') & (ws & A5 & A5') & A6) (B1 & B2 & (v' & B3 & B3') & _ & (vs' & B4 & B4') & (ws' & B5 & B5') & B6). cbn [h_id h_dn h_name h_ips h_macs h_boot] in *.
    pose proof (says_unique _ _ _ _ _ A3 B3) as E3. injection E3 as ->. pose proof (says_unique _ _ _ _ _ A4 B4) as E4. pose proof (says_unique _ _ _ _ _ A5 B5) as E5. rewrite (maybe_unique _ _ _ _ _ A6 B6). now subst.
  - intros k e [[i d b] ms] [[i' d' b'] ms'] (A1 & A2 & A3 & A4) (B1 & B2 & B3 & B4). cbn [fst snd g_id g_dn g_boot] in *. rewrite (maybe_unique _ _ _ _ _ A3 B3), (says_unique _ _ _ _ _ A4 B4). now subst.
Qed.
Print Assumptions C101_one_reading.
(** Every address has one network, or none. So of all the blocks of a configuration one has the address, or
    the error output has it. *)
Theorem C101_one_net : forall io iob other ns a,
  ((exists n, home io iob other ns a n) \/ homeless io iob other ns a) /\
  (forall n n', home io iob other ns a n -> home io iob other ns a n' -> n = n') /\
  (forall n, home io iob other ns a n -> ~ homeless io iob other ns a).
Proof.
  intros io iob other ns a. split; [|split; [apply home_unique|apply home_not_homeless]].
  assert (D : forall n, inside io iob other n (a_ip a) \/ ~ inside io iob other n (a_ip a)).
  { intros n. destruct (is_in_net io iob other n (a_ip a)) as [[|]|] eqn:E; [left; now apply in_net_true|right|right]; intros X; apply in_net_true in X; congruence. }
  induction ns as [|n ns IH]; [right; intros n []|]. destruct (D n) as [Y|Y].
  - left. exists n, [], ns. split; [reflexivity|]. split; [exact Y|intros m []].
  - destruct IH as [(m & l1 & l2 & -> & I & F)|H].
    + left. exists m, (n :: l1), l2. split; [reflexivity|]. split; [exact I|]. intros x [<-|X]; auto.
    + right. intros x [<-|X]; auto.
Qed.
Print Assumptions C101_one_net.
(** An address is in a network if it is one of the 2^(32-n) addresses from that of the network on. *)
Theorem C101_inside_partial : forall io iob other d a n tm i, int_no_dot io -> ip_ok a -> ip_ok i -> 0 <= n <= 32 -> mask_text n tm -> d_address d = PStr (ip_text a) -> d_mask d = PStr tm ->
  (inside io iob other d (ip_text i) <-> ip_num a mod 2 ^ (32 - n) = 0 /\ ip_num a <= ip_num i < ip_num a + 2 ^ (32 - n)).
Proof.
  intros io iob other d a n tm i IO A I N M DA DM. destruct (in_net_raw_spec io other IO [] [] a n tm i A I N M) as (b & E & SP). rewrite <- in_net_true, <- SP.
  assert (X : is_in_net io iob other d (ip_text i) = Ok b) by (unfold is_in_net; rewrite DA, DM; exact E). rewrite X. split; [now intros [= ->]|now intros ->].
Qed.
Print Assumptions C101_inside_partial.
(** So a network whose address has bits outside its mask has no addresses at all. *)
Theorem C101_host_bits_refuted : forall io iob other d a n tm i, int_no_dot io -> ip_ok a -> ip_ok i -> 0 <= n <= 32 -> mask_text n tm -> d_address d = PStr (ip_text a) -> d_mask d = PStr tm ->
  ip_num a mod 2 ^ (32 - n) <> 0 -> ~ inside io iob other d (ip_text i).
Proof. intros io iob other d a n tm i IO A I N M DA DM Z0 X. apply (C101_inside_partial io iob other d a n tm i) in X; auto. tauto. Qed.
Print Assumptions C101_host_bits_refuted.
(** Values that are octets, as a server sends them: with one network and one address of a host nothing is
    printed, and an exception is raised. *)
Theorem C101_octets_refuted : forall lower io iob other repr order nets hosts groups domain rs hs a,
  reads (net_entry lower) 0 nets rs -> reads (host_entry lower repr) 0 hosts hs -> every_net rs <> [] -> address_of hs a ->
  (forall n, In n (every_net rs) -> exists b, d_address n = PBytes b /\ iob b = Err EValue) ->
  exists notes x, dhcp lower io iob other repr order nets hosts groups domain = ([], notes, Some x).
Proof.
  intros lower io iob other repr order nets hosts groups domain rs hs a R H NE A O. unfold dhcp. pose proof H as H'. apply get_hosts_spec in H'.
  rewrite (proj2 (get_nets_spec lower nets 0%nat [] [] (plain rs, shared_of rs))) by (exists rs; split; [exact R|symmetry; apply put_nets]). rewrite H'.
  destruct (get_groups lower groups hs) as [e [st|]]; [|eauto]. change (all_nets (plain rs) (shared_of rs)) with (every_net rs).
  apply all_addrs_in in A. destruct (flat_map host_addrs hs) as [|a0 l]; [contradiction|]. destruct (every_net rs) as [|n ns]; [now destruct NE|].
  destruct (O n (or_introl eq_refl)) as (b & B1 & B2). cbn [place find_net]. unfold is_in_net at 1. rewrite B1. cbn [aton_v]. rewrite B2. cbn [bind]. eauto.
Qed.
Print Assumptions C101_octets_refuted.

(** ** A case *)
Definition dx_dn (c : string) : dn := [[mkAtv (S_ "cn") (S_ c)]; [mkAtv (S_ "dc") (S_ "com")]].
Definition dx_e (c : string) (l : list (string * list string)) : entry :=
  new_entry ascii_lower (dx_dn c) (map (fun x => (PStr (S_ (fst x)), map (fun v => PStr (S_ v)) (snd x))) l).
Definition dx_err : str -> res Z := fun _ => Err EValue.
Definition dx_errb : bytes -> res Z := fun _ => Err EValue.
Definition dx_run (order : nat -> option nat -> list haddr -> list haddr) (nets hosts groups : list entry) :=
  dhcp ascii_lower dx_err dx_errb dx_err (fun _ => []) order nets hosts groups (S_ "example.com").
Definition dx_order : nat -> option nat -> list haddr -> list haddr := fun n _ l => if Nat.eqb n 0 then rev l else l.
Lemma dx_order_ok n g l : Permutation (dx_order n g l) l.
Proof. unfold dx_order. destruct (Nat.eqb n 0); [apply Permutation_sym, Permutation_rev|reflexivity]. Qed.
Definition dx_net (c a m : string) (more : list (string * list string)) : entry :=
  dx_e c ([("cn", [c]); ("ipNetworkNumber", [a]); ("ipNetmaskNumber", [m])]%string ++ more).
Definition dx_host (c : string) (ips : list string) (more : list (string * list string)) : entry :=
  dx_e c ([("cn", [c]); ("ipHostNumber", ips)]%string ++ more).
Definition dx_nets : list entry :=
  [dx_net "lan" "10.1.0.0" "16" [("router", ["10.1.0.1"; "10.1.0.2"])]; dx_net "s1" "10.2.0.0" "255.255.0.0" [("sharedNetworkName", ["wire"])];
   dx_net "s2" "10.3.0.0" "24" [("sharedNetworkName", ["wire"])]]%string.
Definition dx_hosts : list entry :=
  [dx_host "a" ["10.1.0.7"; "10.2.0.7"] [("macAddress", ["00:01"])]; dx_host "b" ["10.1.0.8"] []; dx_host "c" ["10.1.0.9"; "192.168.0.1"] [("bootFile", ["x"])]]%string.
Definition dx_groups : list entry :=
  [dx_e "g" [("bootFile", ["g.img"]); ("member", ["cn=a,dc=com"; "cn=c,dc=com"])]; dx_e "h" [("bootFile", ["h.img"]); ("member", ["cn=c,dc=com"])]]%string.
(** A line, with > for a tab *)
Definition dx_l (l : string) : str := map (fun c => if c =? 62 then 9 else c) (S_ l).
Example C101_case : let '(out, notes, x) := dx_run dx_order dx_nets dx_hosts dx_groups in
  out = map dx_l
    ["shared-network ""wire"" {"; "># cn=s1,dc=com"; ">subnet 10.2.0.0 netmask 255.255.0.0 {"; ">>option domain-name ""s1.example.com"";"; ">}";
     "># cn=g,dc=com"; ">group {"; ">>filename ""g.img"";"; ">># cn=a,dc=com"; ">>host a.s1.example.com {"; ">>>hardware ethernet 00:01;"; ">>>fixed-address 10.2.0.7;"; ">>}"; ">}";
     "># cn=s2,dc=com"; ">subnet 10.3.0.0 netmask 255.255.255.0 {"; ">>option domain-name ""s2.example.com"";"; ">}"; "}"; "";
     "# cn=lan,dc=com"; "subnet 10.1.0.0 netmask 255.255.0.0 {"; ">option domain-name ""lan.example.com"";"; ">option routers 10.1.0.1, 10.1.0.2;"; "}";
     "# cn=g,dc=com"; "group {"; ">filename ""g.img"";"; "># cn=c,dc=com"; ">host c.lan.example.com {"; ">>fixed-address 10.1.0.9;"; ">>filename ""x"";"; ">}";
     "># cn=a,dc=com"; ">host a.lan.example.com {"; ">>hardware ethernet 00:01;"; ">>fixed-address 10.1.0.7;"; ">}"; "}";
     "# cn=b,dc=com"; "host b.lan.example.com {"; ">fixed-address 10.1.0.8;"; "}"]%string /\
  (exists h g a, notes = [DTwo h g; DNoNet a] /\ h_name h = S_ "c" /\ g_boot g = Some (PStr (S_ "h.img")) /\ a_ip a = S_ "192.168.0.1") /\ x = None.
Proof. vm_compute. split; [reflexivity|]. split; [|reflexivity]. do 3 eexists. repeat split. Qed.
(** Its entries meet the conditions of [C101_runs_partial]. *)
Definition dx_fineb (n : dnet) : bool :=
  match d_name n, aton_v dx_err dx_errb dx_err (d_address n), aton_v dx_err dx_errb dx_err (d_mask n) with
  | PStr _, Ok _, Ok m => (0 <=? m) && (m <? 2 ^ 32) && forallb (fun v => match v with PStr _ => true | PBytes _ => false end) (d_routers n ++ d_wins n ++ d_dns n)
  | _, _, _ => false
  end.
Lemma dx_fine n : dx_fineb n = true -> net_fine dx_err dx_errb dx_err n.
Proof.
  unfold dx_fineb, net_fine, number. destruct (d_name n) as [s|]; [|discriminate]. destruct (aton_v dx_err dx_errb dx_err (d_address n)) as [a|]; [|discriminate]. destruct (aton_v dx_err dx_errb dx_err (d_mask n)) as [m|]; [|discriminate].
  rewrite !andb_true_iff, Z.leb_le, Z.ltb_lt, forallb_forall. intros (L & F). assert (T : forall v, In v (d_routers n ++ d_wins n ++ d_dns n) -> exists t, v = PStr t) by (intros v V; specialize (F v V); destruct v; [eauto|discriminate]).
  split; [eauto|]. split; [eauto|]. split; [eauto|]. repeat split; intros v V; apply T; rewrite !in_app_iff; auto.
Qed.
Example C101_runs_case : exists rs hs gs, reads (net_entry ascii_lower) 0 dx_nets rs /\ reads (host_entry ascii_lower (fun _ => [])) 0 dx_hosts hs /\ reads (group_entry ascii_lower) 0 dx_groups gs /\ NoDup (map h_dn hs) /\
  (forall n, In n (every_net rs) -> net_fine dx_err dx_errb dx_err n) /\ (forall h, In h hs -> host_fine dx_err dx_errb dx_err h) /\ length (every_net rs) = 3%nat /\ length hs = 3%nat.
Proof.
  destruct (dx_run dx_order dx_nets dx_hosts dx_groups) as [[out notes] x] eqn:E. assert (X : x = None) by (pose proof C101_case as H; rewrite E in H; tauto). subst x.
  destruct (C101_config _ _ _ _ _ _ _ _ _ _ _ _ dx_order_ok E) as (rs & hs & gs & R & H & RG & D & _). exists rs, hs, gs. split; [exact R|]. split; [exact H|]. split; [exact RG|]. split; [exact D|].
  assert (EN : exists p sh, get_nets ascii_lower 0 dx_nets [] [] = Ok (p, sh) /\ every_net rs = p ++ flat_map snd sh).
  { exists (plain rs), (shared_of rs). split; [|reflexivity]. apply get_nets_spec. exists rs. split; [exact R|symmetry; apply put_nets]. }
  destruct EN as (p & sh & EN & ->). apply get_hosts_spec in H.
  assert (B : match get_nets ascii_lower 0 dx_nets [] [] with Ok (p, sh) => forallb dx_fineb (p ++ flat_map snd sh) && Nat.eqb (length (p ++ flat_map snd sh)) 3 | Err _ => false end = true) by (vm_compute; reflexivity).
  assert (C : match get_hosts ascii_lower (fun _ => []) 0 dx_hosts with Ok l => forallb (fun h => forallb (fun ip => match aton_v dx_err dx_errb dx_err (PStr ip) with Ok _ => true | Err _ => false end) (h_ips h)) l && Nat.eqb (length l) 3 | Err _ => false end = true) by (vm_compute; reflexivity).
  rewrite EN in B. rewrite H in C. apply andb_true_iff in B, C. destruct B as (B1 & B2), C as (C1 & C2). rewrite forallb_forall in B1, C1. split; [intros n N; apply dx_fine; now apply B1|]. split.
  - intros h Hh ip I. specialize (C1 h Hh). rewrite forallb_forall in C1. specialize (C1 ip I). unfold number. destruct (aton_v dx_err dx_errb dx_err (PStr ip)); [eauto|discriminate].
  - split; now apply Nat.eqb_eq.
Qed.
Example C101_inside_case : ip_ok (mkIp4 10 1 0 0) /\ ip_text (mkIp4 10 1 0 0) = S_ "10.1.0.0" /\ mask_text 16 (S_ "16") /\ ip_num (mkIp4 10 1 0 0) mod 2 ^ (32 - 16) = 0 /\
  ip_num (mkIp4 10 1 0 5) mod 2 ^ (32 - 16) <> 0 /\ int_no_dot dx_err.
Proof. split; [unfold ip_ok; cbn; lia|]. split; [reflexivity|]. split; [left; reflexivity|]. split; [reflexivity|]. split; [vm_compute; discriminate|]. intros s _. reflexivity. Qed.
Definition dx_bytes : entry := new_entry ascii_lower (dx_dn "n") [(PStr (S_ "cn"), [PBytes (B "n")]); (PStr (S_ "ipNetworkNumber"), [PBytes (B "10.0.0.0")]); (PStr (S_ "ipNetmaskNumber"), [PBytes (B "8")])].
Definition dx_bnet : dnet := mkDnet 0 (dn_text (dx_dn "n")) (PBytes (B "n")) (PBytes (B "10.0.0.0")) (PBytes (B "8")) [] [] [] [].
Lemma ok_inj {A} (a b : A) : Ok a = Ok b -> a = b.
Proof. now intros [= ->]. Qed.
Example C101_octets_case : exists rs hs a, reads (net_entry ascii_lower) 0 [dx_bytes] rs /\ reads (host_entry ascii_lower (fun _ => [])) 0 [dx_host "a" ["10.0.0.1"%string] []] hs /\ every_net rs <> [] /\ address_of hs a /\
  (forall n, In n (every_net rs) -> exists b, d_address n = PBytes b /\ dx_errb b = Err EValue).
Proof.
  destruct (get_nets ascii_lower 0 [dx_bytes] [] []) as [[p sh]|x] eqn:E; [|exfalso; revert E; vm_compute; discriminate]. pose proof E as E'. apply get_nets_spec in E'. destruct E' as (rs & R & EQ). rewrite put_nets in EQ. injection EQ as -> ->.
  destruct (get_hosts ascii_lower (fun _ => []) 0 [dx_host "a" ["10.0.0.1"%string] []]) as [hs|x] eqn:H; [|exfalso; revert H; vm_compute; discriminate]. pose proof H as H'. apply get_hosts_spec in H'.
  assert (EN : every_net rs = [dx_bnet]).
  { assert (X : (plain rs, shared_of rs) = ([dx_bnet], [])) by (apply ok_inj; rewrite <- E; vm_compute; reflexivity). unfold every_net. injection X as -> ->. reflexivity. }
  set (h := mkHost 0 (dn_text (dx_dn "a")) (S_ "a") [S_ "10.0.0.1"] [] None). assert (HE : hs = [h]) by (apply ok_inj; rewrite <- H; vm_compute; reflexivity).
  exists rs, hs, (mkAddr h 0 (S_ "10.0.0.1")). split; [exact R|]. split; [exact H'|]. rewrite EN, HE. split; [discriminate|]. split; [split; [now left|reflexivity]|]. intros n [<-|[]]. exists (B "10.0.0.0"). split; reflexivity.
Qed.
(** The first network that has an address is not the narrowest, and a network that is not shared comes
    before one that is. *)
Theorem C101_narrow_refuted : exists nets hosts, let '(out, notes, x) := dx_run (fun _ _ l => l) nets hosts [] in
  x = None /\ notes = [] /\ out = map dx_l ["# cn=wide,dc=com"; "subnet 10.0.0.0 netmask 255.0.0.0 {"; ">option domain-name ""wide.example.com"";"; "}"; "# cn=a,dc=com"; "host a.wide.example.com {"; ">fixed-address 10.1.0.7;"; "}";
    "# cn=narrow,dc=com"; "subnet 10.1.0.0 netmask 255.255.0.0 {"; ">option domain-name ""narrow.example.com"";"; "}"]%string.
Proof. exists [dx_net "wide" "10.0.0.0" "8" []; dx_net "narrow" "10.1.0.0" "16" []], [dx_host "a" ["10.1.0.7"%string] []]. vm_compute. repeat split. Qed.
Print Assumptions C101_narrow_refuted.
(** A member whose name is spelt in another way than in the entry of the host is not found: the host has no
    boot file, and nothing is said. *)
Theorem C101_spelling_refuted : exists d d', dn_eqb ascii_lower d d' = true /\ let '(out, notes, x) := dx_run (fun _ _ l => l) [dx_net "lan" "10.1.0.0" "16" []] [dx_host "a" ["10.1.0.7"%string] []]
    [new_entry ascii_lower (dx_dn "g") [(PStr (S_ "bootFile"), [PStr (S_ "g.img")]); (PStr (S_ "member"), [PStr (dn_text d')])]] in
  d = dx_dn "a" /\ x = None /\ notes = [] /\ out = map dx_l ["# cn=lan,dc=com"; "subnet 10.1.0.0 netmask 255.255.0.0 {"; ">option domain-name ""lan.example.com"";"; "}"; "# cn=a,dc=com"; "host a.lan.example.com {"; ">fixed-address 10.1.0.7;"; "}"]%string.
Proof. exists (dx_dn "a"), [[mkAtv (S_ "CN") (S_ "A")]; [mkAtv (S_ "dc") (S_ "com")]]. vm_compute. repeat split. Qed.
Print Assumptions C101_spelling_refuted.
(** Values are not quoted: one hardware address can be read as two. *)
Definition dx_text (ls : list str) : str := flat_map (fun l => l ++ [10]) ls.
Definition dx_mac (vs : list str) : entry :=
  new_entry ascii_lower (dx_dn "a") [(PStr (S_ "cn"), [PStr (S_ "a")]); (PStr (S_ "ipHostNumber"), [PStr (S_ "10.1.0.7")]); (PStr (S_ "macAddress"), map PStr vs)].
Theorem C101_injection_refuted : exists v w u, v <> w /\
  let one := dx_run (fun _ _ l => l) [dx_net "lan" "10.1.0.0" "16" []] [dx_mac [u]] [] in
  let two := dx_run (fun _ _ l => l) [dx_net "lan" "10.1.0.0" "16" []] [dx_mac [v; w]] [] in
  snd one = None /\ snd two = None /\ dx_text (fst (fst one)) = dx_text (fst (fst two)).
Proof. exists (S_ "00:01"), (S_ "00:02"), (S_ "00:01;" ++ [10; 9] ++ S_ "hardware ethernet 00:02"). split; [vm_compute; discriminate|]. vm_compute. repeat split. Qed.
Print Assumptions C101_injection_refuted.
