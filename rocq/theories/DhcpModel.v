(** Model of ldaptor/_scripts/ldap2dhcpconf.py: the part that makes the configuration of a DHCP server from
    the networks, the hosts and the groups that three searches have found.

    Simplifications:
    - what the three searches find is an input. The filters they send are left out, and so are the
      connection, the options and the exit status;
    - an object is told from others by a number: a network, a host or a group by the place of its entry
      among those found, an address by its host and its place among the addresses of that host;
    - the order in which a set is iterated or popped is the parameter [order];
    - a line on the error output is a [note], not its text: the texts show ids of objects. *)
From Verif Require Import Base Utf8Model DnModel EntryModel FilterTextModel LdifTreeModel UtilModel.

(** 322-332: the two RuntimeErrors of only() *)
Definition EMany : exn := EUser 81.
Definition EMissing : exn := EUser 82.

(** 144-164: Net; its hosts are kept in [placed] *)
Record dnet := mkDnet {
  d_id : nat; d_dn : str; d_name : pyval; d_address : pyval; d_mask : pyval;
  d_routers : list pyval; d_ranges : list pyval; d_wins : list pyval; d_dns : list pyval }.
(** 121-129: Host; its group is kept in [grouped] *)
Record host := mkHost { h_id : nat; h_dn : str; h_name : str; h_ips : list str; h_macs : list str; h_boot : option pyval }.
(** 53-56: HostIPAddress *)
Record haddr := mkAddr { a_host : host; a_num : nat; a_ip : str }.
(** 82-86: Group; its hosts are kept in [grouped] *)
Record group := mkGroup { g_id : nat; g_dn : str; g_boot : option pyval }.
(** The lines on the error output: 90-97 and 307 *)
Inductive note := DTwo (h : host) (g : group) | DNoNet (a : haddr).

(** 127: the addresses of a host *)
Fixpoint addrs_from (h : host) (k : nat) (ips : list str) : list haddr :=
  match ips with [] => [] | ip :: r => mkAddr h k ip :: addrs_from h (S k) r end.
Definition host_addrs (h : host) : list haddr := addrs_from h 0 (h_ips h).
(** Two addresses are the same object. *)
Definition addr_eqb (a b : haddr) : bool := Nat.eqb (h_id (a_host a)) (h_id (a_host b)) && Nat.eqb (a_num a) (a_num b).
Definition addr_in (a : haddr) (l : list haddr) : bool := existsb (addr_eqb a) l.

(** ** What the searches found *)
Section Dhcp.
  Variable lower : str -> str.
  Variable io : str -> res Z.       (** int() of text outside plain decimals, as in UtilModel *)
  Variable iob : bytes -> res Z.    (** int() of octets *)
  Variable other : str -> res Z.    (** inet_aton outside dotted quads, as in UtilModel *)
  Variable repr : bytes -> str.     (** str() of octets *)
  Variable order : nat -> option nat -> list haddr -> list haddr.
    (** the order of a set: the one made for the network and the group of these numbers, or the rest *)

  (** str(v), and "%s" % v *)
  Definition shown (v : pyval) : str := match v with PStr s => s | PBytes b => repr b end.
  (** 319-334: only(e, attr, None) *)
  Definition only (e : entry) (k : str) : res (option pyval) :=
    do o <- find_key lower (PStr k) e;
    match o with
    | None => Ok None
    | Some a => match s_vals a with [v] => Ok (Some v) | _ => Err EMany end
    end.
  (** 319-334: only(e, attr) *)
  Definition only_must (e : entry) (k : str) : res pyval :=
    do o <- only e k; match o with Some v => Ok v | None => Err EMissing end.

  (** 403-405: adding a network to the shared network of that name *)
  Fixpoint add_shared (name : pyval) (n : dnet) (l : list (pyval * list dnet)) : list (pyval * list dnet) :=
    match l with
    | [] => [(name, [n])]
    | (m, ns) :: r => if pyval_eqb m name then (m, ns ++ [n]) :: r else (m, ns) :: add_shared name n r
    end.
  (** 388-400: the network of an entry *)
  Definition net_of (k : nat) (e : entry) : res dnet :=
    do cn <- only_must e (S_ "cn");
    do number <- only_must e (S_ "ipNetworkNumber");
    do mask <- only_must e (S_ "ipNetmaskNumber");
    do routers <- get_values lower (PStr (S_ "router")) e;
    do ranges <- get_values lower (PStr (S_ "dhcpRange")) e;
    do wins <- get_values lower (PStr (S_ "winsServer")) e;
    do dns <- get_values lower (PStr (S_ "domainNameServer")) e;
    Ok (mkDnet k (dn_text (e_dn e)) cn number mask routers ranges wins dns).
  (** 383-409: _cbGetNets *)
  Fixpoint get_nets (k : nat) (es : list entry) (nets : list dnet) (shared : list (pyval * list dnet))
    : res (list dnet * list (pyval * list dnet)) :=
    match es with
    | [] => Ok (nets, shared)
    | e :: r =>
        do n <- net_of k e;
        do s <- has_key lower (PStr (S_ "sharedNetworkName")) e;
        if s
        then do name <- only_must e (S_ "sharedNetworkName"); get_nets (S k) r nets (add_shared name n shared)
        else get_nets (S k) r (nets ++ [n]) shared
    end.
  (** 337-350: _cbGetHosts *)
  Fixpoint get_hosts (k : nat) (es : list entry) : res (list host) :=
    match es with
    | [] => Ok []
    | e :: r =>
        do cn <- only_must e (S_ "cn");
        do ips <- getitem lower (PStr (S_ "ipHostNumber")) e;
        do macs <- get_values lower (PStr (S_ "macAddress")) e;
        do boot <- only e (S_ "bootFile");
        do hs <- get_hosts (S k) r;
        Ok (mkHost k (dn_text (e_dn e)) (shown cn) (map shown (s_vals ips)) (map shown macs) boot :: hs)
    end.

  (** ** Groups *)
  (** host.group of the hosts that have one, and group.hosts *)
  Record grouped := mkGrouped { gr_of : list (nat * group); gr_in : list (nat * host) }.
  Definition group_of (st : grouped) (h : host) : option group :=
    match find (fun p => Nat.eqb (fst p) (h_id h)) (gr_of st) with Some p => Some (snd p) | None => None end.
  Definition hosts_in (st : grouped) (g : group) : list host :=
    map snd (filter (fun p => Nat.eqb (fst p) (g_id g)) (gr_in st)).
  (** 88-100: Group.addHost *)
  Definition group_add (g : group) (h : host) (st : grouped) : grouped * list note :=
    match group_of st h with
    | Some _ => (st, [DTwo h g])
    | None => (mkGrouped (gr_of st ++ [(h_id h, g)]) (gr_in st ++ [(g_id g, h)]), [])
    end.
  (** 243-246: dnToHost *)
  Fixpoint dn_table (hs : list host) (t : list (str * host)) : res (list (str * host)) :=
    match hs with
    | [] => Ok t
    | h :: r => if existsb (fun p => str_eqb (fst p) (h_dn h)) t then Err EAssert else dn_table r (t ++ [(h_dn h, h)])
    end.
  (** 252: dnToHost.get(member); octets are no key of it *)
  Definition dn_lookup (t : list (str * host)) (m : pyval) : option host :=
    match m with
    | PStr s => match find (fun p => str_eqb (fst p) s) t with Some p => Some (snd p) | None => None end
    | PBytes _ => None
    end.
  (** 251-254: the members of one group *)
  Fixpoint add_members (t : list (str * host)) (g : group) (ms : list pyval) (st : grouped) : grouped * list note :=
    match ms with
    | [] => (st, [])
    | m :: r =>
        match dn_lookup t m with
        | Some h => let '(st, ns) := group_add g h st in let '(st, ns') := add_members t g r st in (st, ns ++ ns')
        | None => add_members t g r st
        end
    end.
  (** 248-254: the loop of _cbGetGroups *)
  Fixpoint add_groups (t : list (str * host)) (k : nat) (es : list entry) (st : grouped) : list note * res grouped :=
    match es with
    | [] => ([], Ok st)
    | e :: r =>
        match only e (S_ "bootFile") with
        | Err x => ([], Err x)
        | Ok boot =>
            match get_values lower (PStr (S_ "member")) e with
            | Err x => ([], Err x)
            | Ok ms =>
                let '(st, ns) := add_members t (mkGroup k (dn_text (e_dn e)) boot) ms st in
                let '(ns', x) := add_groups t (S k) r st in (ns ++ ns', x)
            end
        end
    end.
  (** 242-256: _cbGetGroups *)
  Definition get_groups (es : list entry) (hs : list host) : list note * res grouped :=
    match dn_table hs [] with
    | Err x => ([], Err x)
    | Ok t => add_groups t 0 es (mkGrouped [] [])
    end.

  (** ** The network of an address *)
  (** 38-44: my_aton; inet_aton refuses octets *)
  Definition aton_v (v : pyval) : res Z :=
    match v with
    | PStr s => aton io other s
    | PBytes b => match iob b with Ok i => Ok (aton_numbits i) | Err EValue => Err EType | Err x => Err x end
    end.
  (** 166-172: isInNet *)
  Definition is_in_net (n : dnet) (ip : str) : res bool :=
    do net <- aton_v (d_address n);
    do mask <- aton_v (d_mask n);
    do i <- aton_v (PStr ip);
    Ok (Z.land i mask =? net).
  (** 296-302: the first network that has the address *)
  Fixpoint find_net (ns : list dnet) (ip : str) : res (option dnet) :=
    match ns with
    | [] => Ok None
    | n :: r => do b <- is_in_net n ip; if b then Ok (Some n) else find_net r ip
    end.
  (** 297-298: the networks, in the order in which they are tried *)
  Definition all_nets (nets : list dnet) (shared : list (pyval * list dnet)) : list dnet := nets ++ flat_map snd shared.
  (** 295-307 (and 174-176, addHost): the addresses, one after the other; the result gives the numbers of
      networks with the addresses appended to their hosts *)
  Fixpoint place (ns : list dnet) (l : list haddr) : list note * res (list (nat * haddr)) :=
    match l with
    | [] => ([], Ok [])
    | a :: r =>
        match find_net ns (a_ip a) with
        | Err x => ([], Err x)
        | Ok (Some n) =>
            match is_in_net n (a_ip a) with
            | Err x => ([], Err x)
            | Ok false => ([], Err EAssert)
            | Ok true => let '(e, p) := place ns r in (e, do p <- p; Ok ((d_id n, a) :: p))
            end
        | Ok None => let '(e, p) := place ns r in (DNoNet a :: e, p)
        end
    end.
  (** net.hosts *)
  Definition net_hosts (placed : list (nat * haddr)) (n : dnet) : list haddr :=
    map snd (filter (fun p => Nat.eqb (fst p) (d_id n)) placed).

  (** ** Printing *)
  (** The lines printed, and the exception that ends them *)
  Definition printed := (list str * option exn)%type.
  Definition andthen (a b : printed) : printed :=
    match snd a with Some _ => a | None => (fst a ++ fst b, snd b) end.
  Definition prefixed (prefix : str) (ls : list str) : list str := map (fun l => prefix ++ l) ls.
  Definition tab : str := [9].
  (** 65-67 and 111-113: the line for a boot file *)
  Definition boot_line (b : option pyval) : list str :=
    match b with Some v => [tab ++ S_ "filename """ ++ shown v ++ S_ """;"] | None => [] end.
  (** 58-70: HostIPAddress.printDHCP *)
  Definition print_addr (domain : str) (prefix : str) (a : haddr) : list str :=
    let h := a_host a in
    prefixed prefix
      ((S_ "# " ++ h_dn h) :: (S_ "host " ++ h_name h ++ S_ "." ++ domain ++ S_ " {") ::
       map (fun m => tab ++ S_ "hardware ethernet " ++ m ++ S_ ";") (h_macs h) ++
       [tab ++ S_ "fixed-address " ++ a_ip a ++ S_ ";"] ++ boot_line (h_boot h) ++ [S_ "}"]).
  (** 102-118: Group.printDHCP; [net] is the number of the network that calls it *)
  Definition print_group (st : grouped) (net : nat) (g : group) (domain : str) (addrs : list haddr) (prefix : str) : list str * list haddr :=
    let addresses := filter (fun a => addr_in a addrs) (flat_map host_addrs (hosts_in st g)) in
    let rest := filter (fun a => negb (addr_in a addresses)) addrs in
    (match addresses with
     | [] => []
     | _ =>
         (prefix ++ S_ "# " ++ g_dn g) :: (prefix ++ S_ "group {") :: prefixed prefix (boot_line (g_boot g)) ++
         flat_map (print_addr domain (prefix ++ tab)) (order net (Some (g_id g)) addresses) ++ [prefix ++ S_ "}"]
     end, rest).
  (** self.name + "." + domain *)
  Definition net_domain (n : dnet) (domain : str) : res str :=
    match d_name n with PStr s => Ok (s ++ S_ "." ++ domain) | PBytes _ => Err EType end.
  (** 205-208: the groups of the addresses of a network; also the addresses that are left *)
  Fixpoint print_groups (st : grouped) (n : dnet) (domain : str) (prefix : str) (l : list haddr) (addrs : list haddr) : printed * list haddr :=
    match l with
    | [] => (([], None), addrs)
    | a :: r =>
        match group_of st (a_host a) with
        | None => print_groups st n domain prefix r addrs
        | Some g =>
            match net_domain n domain with
            | Err x => (([], Some x), addrs)
            | Ok d =>
                let '(ls, addrs) := print_group st (d_id n) g d addrs prefix in
                let '(p, addrs) := print_groups st n domain prefix r addrs in
                (andthen (ls, None) p, addrs)
            end
        end
    end.
  (** 210-212: the addresses that are left *)
  Definition print_left (n : dnet) (domain : str) (prefix : str) (addrs : list haddr) : printed :=
    match addrs with
    | [] => ([], None)
    | _ =>
        match net_domain n domain with
        | Err x => ([], Some x)
        | Ok d => (flat_map (print_addr d prefix) (order (d_id n) None addrs), None)
        end
    end.
  (** ", ".join(l) *)
  Fixpoint texts (l : list pyval) : res (list str) :=
    match l with
    | [] => Ok []
    | PStr s :: r => do ts <- texts r; Ok (s :: ts)
    | PBytes _ :: _ => Err EType
    end.
  Definition commas (l : list pyval) : res str := do ts <- texts l; Ok (join (S_ ", ") ts).
  (** 187-188, 191-198: an option that lists values *)
  Definition option_line (name : str) (l : list pyval) : res (list str) :=
    match l with [] => Ok [] | _ => do t <- commas l; Ok [tab ++ S_ "option " ++ name ++ S_ " " ++ t ++ S_ ";"] end.
  (** 179-199: the lines for the network itself *)
  Definition net_lines (n : dnet) (domain : str) : res (list str) :=
    do m <- aton_v (d_mask n);
    do nm <- ntoa m;
    do routers <- option_line (S_ "routers") (d_routers n);
    do wins <- option_line (S_ "netbios-name-servers") (d_wins n);
    do dns <- option_line (S_ "domain-name-servers") (d_dns n);
    Ok ((S_ "# " ++ d_dn n) :: (S_ "subnet " ++ shown (d_address n) ++ S_ " netmask " ++ nm ++ S_ " {") ::
        (tab ++ S_ "option domain-name """ ++ shown (d_name n) ++ S_ "." ++ domain ++ S_ """;") ::
        routers ++ map (fun r => tab ++ S_ "range " ++ shown r ++ S_ ";") (d_ranges n) ++ wins ++ dns ++ [S_ "}"]).
  (** 178-212: Net.printDHCP *)
  Definition print_net (st : grouped) (placed : list (nat * haddr)) (domain : str) (prefix : str) (n : dnet) : printed :=
    match net_lines n domain with
    | Err x => ([], Some x)
    | Ok ls =>
        let hosts := net_hosts placed n in
        let '(p, rest) := print_groups st n domain prefix hosts hosts in
        andthen (prefixed prefix ls, None) (andthen p (print_left n domain prefix rest))
    end.
  Fixpoint print_nets (st : grouped) (placed : list (nat * haddr)) (domain : str) (prefix : str) (ns : list dnet) : printed :=
    match ns with
    | [] => ([], None)
    | n :: r => andthen (print_net st placed domain prefix n) (print_nets st placed domain prefix r)
    end.
  (** 234-239: SharedNet.printDHCP *)
  Definition print_shared (st : grouped) (placed : list (nat * haddr)) (domain : str) (s : pyval * list dnet) : printed :=
    andthen ([S_ "shared-network """ ++ shown (fst s) ++ S_ """ {"], None)
      (andthen (print_nets st placed domain tab (snd s)) ([S_ "}"; []], None)).
  Fixpoint print_all (st : grouped) (placed : list (nat * haddr)) (domain : str) (shared : list (pyval * list dnet)) (nets : list dnet) : printed :=
    match shared with
    | [] => print_nets st placed domain [] nets
    | s :: r => andthen (print_shared st placed domain s) (print_all st placed domain r nets)
    end.
  (** 293-312: haveGroups, and 287-290: haveHosts, 376-380: haveNets, 440-444: search. The lines, the
      notes, and the exception that goes to error() *)
  Definition dhcp (nets hosts groups : list entry) (domain : str) : list str * list note * option exn :=
    match get_nets 0 nets [] [] with
    | Err x => ([], [], Some x)
    | Ok (ns, shared) =>
        match get_hosts 0 hosts with
        | Err x => ([], [], Some x)
        | Ok hs =>
            match get_groups groups hs with
            | (e, Err x) => ([], e, Some x)
            | (e, Ok st) =>
                match place (all_nets ns shared) (flat_map host_addrs hs) with
                | (e', Err x) => ([], e ++ e', Some x)
                | (e', Ok placed) => let '(ls, x) := print_all st placed domain shared ns in (ls, e ++ e', x)
                end
            end
        end
    end.
End Dhcp.
