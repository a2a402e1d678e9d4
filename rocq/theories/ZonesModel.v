(** Model of ldaptor/_scripts/ldap2dnszones.py: from the networks and hosts found to the zone files.

    Simplifications:
    - the results of the searches are inputs; an exception in the callback of the second search makes that
      search fail (the client closes the connection), so both are one here;
    - what was reported on the error output before an exception is left out;
    - opening, closing and writing files raises nothing; the names of the files are taken to be different from
      each other and from those of the temporary files;
    - [repr] is what str() gives for octets. *)
From Verif Require Import Base Utf8Model DnModel EntryModel UtilModel ToolsModel.

(** 325-331: a reverse zone of the command line *)
Record zone := mkZone { z_address : Z; z_mask : Z; z_file : str }.
(** 45-49: Host *)
Record zhost := mkZhost { zh_dn : str; zh_name : str; zh_ips : list str }.
(** What has been written: the forward file, and the file of each reverse zone that has been opened *)
Record zfiles := mkZfiles { f_forward : str; f_reverse : list (option str) }.
(** 213 and 215: what is reported *)
Inductive znote := ZNoPtr (h : zhost) (ip : str) | ZNoNet (h : zhost) (ip : str).

Section Zones.
  Variable lower : str -> str.
  Variable io : str -> res Z.
  Variable other : str -> res Z.
  Variable repr : bytes -> str.
  Variable domain : str.
  Variable zones : list zone.

  Definition zshown (v : pyval) : str := match v with PStr s => s | PBytes b => repr b end.
  (** 129-138: only(e, attrName) *)
  Definition zonly (e : entry) (k : str) : res pyval :=
    do a <- getitem lower (PStr k) e; match s_vals a with [v] => Ok v | _ => Err EAssert end.
  (** 163-168: the network of an entry *)
  Definition zone_net (e : entry) : res net :=
    do cn <- zonly e (S_ "cn");
    do number <- zonly e (S_ "ipNetworkNumber");
    do mask <- zonly e (S_ "ipNetmaskNumber");
    Ok (mkNet (dn_text (e_dn e)) (zshown cn) (zshown number) (zshown mask)).
  (** 195-197: the host of an entry *)
  Definition zone_host (e : entry) : res zhost :=
    do cn <- zonly e (S_ "cn");
    do ips <- getitem lower (PStr (S_ "ipHostNumber")) e;
    Ok (mkZhost (dn_text (e_dn e)) (zshown cn) (map zshown (s_vals ips))).
  (** print(text, file=...) *)
  Definition put (t : option str) (s : str) : option str := Some (match t with Some x => x | None => [] end ++ s ++ [10]).
  (** 171-178: the reverse zones of a network; the last one is kept in reverseZone *)
  Fixpoint reverse_net (n : net) (k : nat) (zs : list zone) (ts : list (option str)) (home : option nat) : res (list (option str) * option nat) :=
    match zs, ts with
    | z :: zs, t :: ts =>
        do ip <- aton io other (n_address n);
        if Z.land ip (z_mask z) =? z_address z then
          do s <- net_reverse io other n domain;
          do p <- reverse_net n (S k) zs ts (Some k);
          Ok (put t s :: fst p, snd p)
        else
          do p <- reverse_net n (S k) zs ts home;
          Ok (t :: fst p, snd p)
    | _, _ => Ok ([], home)
    end.
  (** 160-180: _cbGotNets *)
  Fixpoint got_nets (es : list entry) (st : zfiles) (nets : list (net * option nat)) : res (zfiles * list (net * option nat)) :=
    match es with
    | [] => Ok (st, nets)
    | e :: r =>
        do n <- zone_net e;
        do f <- net_forward io other n;
        do p <- reverse_net n 0 zones (f_reverse st) None;
        got_nets r (mkZfiles (f_forward st ++ f ++ [10]) (fst p)) (nets ++ [(n, snd p)])
    end.
  (** 25-28 and 30-33: getForward and getReverse of an address *)
  Definition host_forward (h : zhost) (ip name : str) : str := S_ ";  " ++ zh_dn h ++ [10] ++ format_ip (zh_name h ++ S_ "." ++ name) ip.
  Definition host_reverse (h : zhost) (ip name : str) : str := S_ ";  " ++ zh_dn h ++ [10] ++ format_ptr (zh_name h ++ S_ "." ++ name) ip.
  Fixpoint put_at (k : nat) (s : str) (ts : list (option str)) : list (option str) :=
    match ts, k with
    | [], _ => []
    | t :: r, O => put t s :: r
    | t :: r, S k => t :: put_at k s r
    end.
  (** 198-215: one address *)
  Definition got_ip (nets : list (net * option nat)) (h : zhost) (p : zfiles * list znote) (ip : str) : zfiles * list znote :=
    let '(st, notes) := p in
    match find (fun q => in_net io other (fst q) ip) nets with
    | None => (st, notes ++ [ZNoNet h ip])
    | Some (n, home) =>
        let f := f_forward st ++ host_forward h ip (n_name n) ++ [10] in
        match home with
        | Some k => (mkZfiles f (put_at k (host_reverse h ip (n_name n ++ S_ "." ++ domain)) (f_reverse st)), notes)
        | None => (mkZfiles f (f_reverse st), notes ++ [ZNoPtr h ip])
        end
    end.
  (** 194-215: _cbGotHost *)
  Fixpoint got_hosts (nets : list (net * option nat)) (es : list entry) (p : zfiles * list znote) : res (zfiles * list znote) :=
    match es with
    | [] => Ok p
    | e :: r => do h <- zone_host e; got_hosts nets r (fold_left (got_ip nets h) (zh_ips h) p)
    end.
  (** 276-284 and 223-233: the whole; [hosts_end]: how the second search ends *)
  Definition zones_run (nets : res (list entry)) (hosts : list entry) (hosts_end : res unit) : res (zfiles * list znote) :=
    do es <- nets;
    do p <- got_nets es (mkZfiles (S_ "$ORIGIN" ++ [9] ++ domain ++ S_ "." ++ [10] ++ [10]) (map (fun _ => None) zones)) [];
    do q <- got_hosts (snd p) hosts (fst p, []);
    do _ <- hosts_end;
    Ok q.
  (** The files of a directory, by name *)
  Definition disk := str -> option str.
  Definition store (name text : str) (d : disk) : disk := fun f => if str_eqb f name then Some text else d f.
  Fixpoint store_all (zs : list zone) (ts : list (option str)) (d : disk) : disk :=
    match zs, ts with
    | z :: zs, Some t :: ts => store_all zs ts (store (z_file z) t d)
    | _ :: zs, None :: ts => store_all zs ts d
    | _, _ => d
    end.
  (** 236-257: filesOk renames the temporary files, filesAbort removes them; 123-126: exitStatus *)
  Definition finish (forward : str) (r : res (zfiles * list znote)) (d : disk) : disk * Z :=
    match r with
    | Ok (st, _) => (store_all zones (f_reverse st) (store forward (f_forward st) d), 0)
    | Err _ => (d, 1)
    end.
End Zones.
