(** Specification for the DHCP configuration: what the entries say, and what is to be written. *)
From Verif Require Import Base Utf8Model DnModel EntryModel FilterTextModel LdifTreeModel UtilModel DhcpModel.

Section Spec.
  Variable lower : str -> str.
  Variable io : str -> res Z.
  Variable iob : bytes -> res Z.
  Variable other : str -> res Z.
  Variable repr : bytes -> str.

  (** ** What an entry says *)
  (** Its values for an attribute, none if it lacks it *)
  Definition says (e : entry) (k : str) (vs : list pyval) : Prop :=
    exists o, find_key lower (PStr k) e = Ok o /\ vs = match o with Some a => s_vals a | None => [] end.
  (** Its one value *)
  Definition says_one (e : entry) (k : str) (v : pyval) : Prop := says e k [v].
  (** It has the attribute. *)
  Definition has (e : entry) (k : str) : Prop := exists a, find_key lower (PStr k) e = Ok (Some a).
  Definition lacks (e : entry) (k : str) : Prop := find_key lower (PStr k) e = Ok None.
  Definition says_maybe (e : entry) (k : str) (o : option pyval) : Prop :=
    match o with Some v => says_one e k v | None => lacks e k end.
  (** The network of an entry, and the name of the shared network it belongs to *)
  Definition net_entry (k : nat) (e : entry) (x : option pyval * dnet) : Prop :=
    d_id (snd x) = k /\ d_dn (snd x) = dn_text (e_dn e) /\ says_one e (S_ "cn") (d_name (snd x)) /\
    says_one e (S_ "ipNetworkNumber") (d_address (snd x)) /\ says_one e (S_ "ipNetmaskNumber") (d_mask (snd x)) /\
    says e (S_ "router") (d_routers (snd x)) /\ says e (S_ "dhcpRange") (d_ranges (snd x)) /\
    says e (S_ "winsServer") (d_wins (snd x)) /\ says e (S_ "domainNameServer") (d_dns (snd x)) /\
    says_maybe e (S_ "sharedNetworkName") (fst x).
  (** Octets as Python shows them *)
  Definition as_text (v : pyval) : str := match v with PStr s => s | PBytes b => repr b end.
  Definition host_entry (k : nat) (e : entry) (h : host) : Prop :=
    h_id h = k /\ h_dn h = dn_text (e_dn e) /\ (exists v, says_one e (S_ "cn") v /\ h_name h = as_text v) /\
    has e (S_ "ipHostNumber") /\ (exists vs, says e (S_ "ipHostNumber") vs /\ h_ips h = map as_text vs) /\
    (exists vs, says e (S_ "macAddress") vs /\ h_macs h = map as_text vs) /\ says_maybe e (S_ "bootFile") (h_boot h).
  (** A group with its members *)
  Definition group_entry (k : nat) (e : entry) (x : group * list pyval) : Prop :=
    g_id (fst x) = k /\ g_dn (fst x) = dn_text (e_dn e) /\ says_maybe e (S_ "bootFile") (g_boot (fst x)) /\ says e (S_ "member") (snd x).
  Inductive reads {A} (R : nat -> entry -> A -> Prop) : nat -> list entry -> list A -> Prop :=
  | reads_nil : forall k, reads R k [] []
  | reads_cons : forall k e es x xs, R k e x -> reads R (S k) es xs -> reads R k (e :: es) (x :: xs).

  (** ** Networks *)
  (** Those that are not shared *)
  Definition plain (rs : list (option pyval * dnet)) : list dnet :=
    flat_map (fun x => match fst x with None => [snd x] | Some _ => [] end) rs.
  Definition named (m : pyval) (rs : list (option pyval * dnet)) : list dnet :=
    flat_map (fun x => match fst x with Some m' => if pyval_eqb m m' then [snd x] else [] | None => [] end) rs.
  (** Each name once, where it is first *)
  Fixpoint firsts (l : list pyval) : list pyval :=
    match l with [] => [] | m :: r => m :: filter (fun x => negb (pyval_eqb m x)) (firsts r) end.
  Definition names (rs : list (option pyval * dnet)) : list pyval :=
    flat_map (fun x => match fst x with Some m => [m] | None => [] end) rs.
  Definition shared_of (rs : list (option pyval * dnet)) : list (pyval * list dnet) :=
    map (fun m => (m, named m rs)) (firsts (names rs)).
  (** All of them: first those that are not shared *)
  Definition every_net (rs : list (option pyval * dnet)) : list dnet := plain rs ++ flat_map snd (shared_of rs).
  (** What a value means as an address or a mask *)
  Definition number (v : pyval) (z : Z) : Prop := aton_v io iob other v = Ok z.
  Definition inside (n : dnet) (ip : str) : Prop :=
    exists a m i, number (d_address n) a /\ number (d_mask n) m /\ number (PStr ip) i /\ Z.land i m = a.
  (** The network of an address is the first that has it. *)
  Definition home (ns : list dnet) (a : haddr) (n : dnet) : Prop :=
    exists l1 l2, ns = l1 ++ n :: l2 /\ inside n (a_ip a) /\ forall m, In m l1 -> ~ inside m (a_ip a).
  Definition homeless (ns : list dnet) (a : haddr) : Prop := forall n, In n ns -> ~ inside n (a_ip a).

  (** ** Groups and addresses *)
  (** The group of a host is the first that has its name, letter for letter, among its members. *)
  Definition group_for (gs : list (group * list pyval)) (h : host) : option group :=
    match find (fun x => mem (PStr (h_dn h)) (snd x)) gs with Some x => Some (fst x) | None => None end.
  (** An address of one of these hosts *)
  Definition address_of (hs : list host) (a : haddr) : Prop :=
    In (a_host a) hs /\ nth_error (h_ips (a_host a)) (a_num a) = Some (a_ip a).

  (** ** What is written *)
  Definition boot_text (b : option pyval) : list str :=
    match b with None => [] | Some v => [9 :: S_ "filename """ ++ as_text v ++ S_ """;"] end.
  Definition host_block (domain p : str) (a : haddr) : list str :=
    map (fun l => p ++ l)
      ([S_ "# " ++ h_dn (a_host a);
        S_ "host " ++ h_name (a_host a) ++ S_ "." ++ domain ++ S_ " {"] ++
       map (fun m => 9 :: S_ "hardware ethernet " ++ m ++ S_ ";") (h_macs (a_host a)) ++
       [9 :: S_ "fixed-address " ++ a_ip a ++ S_ ";"] ++ boot_text (h_boot (a_host a)) ++ [S_ "}"]).
  Definition group_block (domain p : str) (x : group * list haddr) : list str :=
    map (fun l => p ++ l) ([S_ "# " ++ g_dn (fst x); S_ "group {"] ++ boot_text (g_boot (fst x))) ++
    flat_map (host_block domain (p ++ [9])) (snd x) ++ [p ++ S_ "}"].
  (** An option with a list of values, left out if there are none *)
  Definition list_option (name : str) (l : list pyval) (ls : list str) : Prop :=
    (l = [] /\ ls = []) \/ (l <> [] /\ exists ts, l = map PStr ts /\ ls = [9 :: S_ "option " ++ name ++ S_ " " ++ join (S_ ", ") ts ++ S_ ";"]).
  Definition subnet_block (n : dnet) (domain : str) (ls : list str) : Prop :=
    exists m nm routers wins dns, number (d_mask n) m /\ ntoa m = Ok nm /\ list_option (S_ "routers") (d_routers n) routers /\
      list_option (S_ "netbios-name-servers") (d_wins n) wins /\ list_option (S_ "domain-name-servers") (d_dns n) dns /\
      ls = [S_ "# " ++ d_dn n; S_ "subnet " ++ as_text (d_address n) ++ S_ " netmask " ++ nm ++ S_ " {";
            9 :: S_ "option domain-name """ ++ as_text (d_name n) ++ S_ "." ++ domain ++ S_ """;"] ++
           routers ++ map (fun r => 9 :: S_ "range " ++ as_text r ++ S_ ";") (d_ranges n) ++ wins ++ dns ++ [S_ "}"].
  (** What is written for a network: the network; then the groups that have addresses there, each once,
      with these addresses; then the addresses of hosts without a group. Together these are the addresses
      whose network it is, each once. *)
  Definition net_block (hs : list host) (gs : list (group * list pyval)) (ns : list dnet) (domain p : str) (n : dnet) (out : list str) : Prop :=
    exists ls name (blocks : list (group * list haddr)) (rest : list haddr),
      subnet_block n domain ls /\
      let d := name ++ S_ "." ++ domain in
      out = map (fun l => p ++ l) ls ++ flat_map (group_block d p) blocks ++ flat_map (host_block d p) rest /\
      let here := flat_map snd blocks ++ rest in
      NoDup here /\ (forall a, In a here <-> address_of hs a /\ home ns a n) /\ (here <> [] -> d_name n = PStr name) /\
      NoDup (map (fun x => g_id (fst x)) blocks) /\
      (forall g l, In (g, l) blocks -> l <> [] /\ forall a, In a l -> group_for gs (a_host a) = Some g) /\
      (forall a, In a rest -> group_for gs (a_host a) = None).
  Definition shared_block (hs : list host) (gs : list (group * list pyval)) (ns : list dnet) (domain : str) (x : pyval * list dnet) (out : list str) : Prop :=
    exists outs, Forall2 (net_block hs gs ns domain [9]) (snd x) outs /\
      out = [S_ "shared-network """ ++ as_text (fst x) ++ S_ """ {"] ++ concat outs ++ [S_ "}"; []].
  (** First the shared networks, then the others *)
  Definition config (hs : list host) (gs : list (group * list pyval)) (rs : list (option pyval * dnet)) (domain : str) (out : list str) : Prop :=
    exists o1 o2, Forall2 (shared_block hs gs (every_net rs) domain) (shared_of rs) o1 /\
      Forall2 (net_block hs gs (every_net rs) domain []) (plain rs) o2 /\ out = concat o1 ++ concat o2.
  (** The error output: a host that a second group has among its members, and each address without a
      network *)
  Definition notes_ok (hs : list host) (gs : list (group * list pyval)) (ns : list dnet) (notes : list note) : Prop :=
    exists two lost, notes = two ++ map DNoNet lost /\ NoDup lost /\ (forall a, In a lost <-> address_of hs a /\ homeless ns a) /\
      (forall x, In x two -> exists h g, x = DTwo h g) /\
      (forall h g g' ms, In h hs -> In (g, ms) gs -> In (PStr (h_dn h)) ms -> group_for gs h = Some g' -> g' <> g -> In (DTwo h g) two) /\
      (forall h g, In (DTwo h g) two -> In h hs /\ (exists ms, In (g, ms) gs /\ In (PStr (h_dn h)) ms)).
  (** ** Nothing to complain about *)
  Definition texts_only (l : list pyval) : Prop := forall v, In v l -> exists s, v = PStr s.
  Definition net_fine (n : dnet) : Prop :=
    (exists s, d_name n = PStr s) /\ (exists a, number (d_address n) a) /\ (exists m, number (d_mask n) m /\ 0 <= m < 2 ^ 32) /\
    texts_only (d_routers n) /\ texts_only (d_wins n) /\ texts_only (d_dns n).
  Definition host_fine (h : host) : Prop := forall ip, In ip (h_ips h) -> exists i, number (PStr ip) i.
End Spec.
