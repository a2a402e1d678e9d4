(** Models of generate_password.py (ReadPassword), _scripts/ldap2passwd.py (_cbSearch) and of the
    networks of _scripts/ldap2dnszones.py and _scripts/ldap2maradns.py (Net, formatPTR,
    formatIPAddress). *)
From Verif Require Import Base Utf8Model DnModel EntryModel ServerModel UtilModel.

(** ** generate_password.py *)
(** PwgenException, generate_password.py 5-6 *)
Definition EPwgen : exn := EUser 72.
(** twisted.internet.defer.AlreadyCalledError *)
Definition EAlreadyCalled : exn := EUser 73.

(** a + b of text and octets *)
Definition py_add (a b : pyval) : res pyval :=
  match a, b with
  | PStr x, PStr y => Ok (PStr (x ++ y))
  | PBytes x, PBytes y => Ok (PBytes (x ++ y))
  | _, _ => Err EType
  end.
(** bool(a) *)
Definition py_true (a : pyval) : bool :=
  match a with PStr [] => false | PBytes [] => false | _ => true end.
(** s.split(c) of text, for one character *)
Fixpoint split_on (c : Z) (s : str) : list str :=
  match s with
  | [] => [[]]
  | x :: r => if x =? c then [] :: split_on c r
              else match split_on c r with p :: ps => (x :: p) :: ps | [] => [[x]] end
  end.

(** 9-14: ReadPassword. [g_fired] is the result of the Deferred, None before it has one; [g_raised]
    are the exceptions that left the methods, in order. *)
Record readpw := mkReadpw { g_count : Z; g_out : pyval; g_err : pyval; g_fired : option (res (list str)); g_raised : list exn }.
Definition new_readpw (count : Z) : readpw := mkReadpw count (PStr []) (PStr []) None [].
Definition g_raise (g : readpw) (x : exn) : readpw := mkReadpw (g_count g) (g_out g) (g_err g) (g_fired g) (g_raised g ++ [x]).
(** Deferred.callback and Deferred.errback *)
Definition g_fire (g : readpw) (r : res (list str)) : readpw :=
  match g_fired g with
  | None => mkReadpw (g_count g) (g_out g) (g_err g) (Some r) (g_raised g)
  | Some _ => g_raise g EAlreadyCalled
  end.
(** 16-17: outReceived *)
Definition out_received (g : readpw) (data : pyval) : readpw :=
  match py_add (g_out g) data with
  | Ok o => mkReadpw (g_count g) o (g_err g) (g_fired g) (g_raised g)
  | Err x => g_raise g x
  end.
(** 19-20: errReceived *)
Definition err_received (g : readpw) (data : pyval) : readpw :=
  match py_add (g_err g) data with
  | Ok o => mkReadpw (g_count g) (g_out g) o (g_fired g) (g_raised g)
  | Err x => g_raise g x
  end.
(** 26: the lines; octets have no split("\n") *)
Definition out_lines (o : pyval) : res (list str) :=
  match o with
  | PStr s => Ok (List.filter (fun l => negb (match l with [] => true | _ => false end)) (split_on 10 s))
  | PBytes _ => Err EType
  end.
(** 22-35: processEnded; after the errback of 28 the callback of 33 is called all the same *)
Definition process_ended (g : readpw) : readpw :=
  if py_true (g_err g) then g_fire g (Err EPwgen)
  else if py_true (g_out g) then
    match out_lines (g_out g) with
    | Err x => g_raise g x
    | Ok lines =>
        let g' := if Z.of_nat (length lines) =? g_count g then g else g_fire g (Err EPwgen) in
        g_fire g' (Ok lines)
    end
  else g_fire g (Err EPwgen).
(** What the process does: data on its output and error output *)
Inductive pwevent := GOut (data : pyval) | GErr (data : pyval).
Definition pw_event (g : readpw) (e : pwevent) : readpw :=
  match e with GOut d => out_received g d | GErr d => err_received g d end.
(** 38-45: generate(reactor, n), the events of the process, and its end. The arguments the process is
    started with are the first part. *)
Definition generate (n : Z) (evs : list pwevent) : res (list str * readpw) :=
  if 0 <? n then Ok ([S_ "pwgen"; S_ "-cn1"; S_ "-N"; dec n], process_ended (fold_left pw_event evs (new_readpw n)))
  else Err EAssert.

(** ** _scripts/ldap2passwd.py *)
(** One hexadecimal digit, in lower case *)
Definition hex_low (n : Z) : Z := if n <? 10 then 48 + n else 87 + n.
(** repr() of octets, between quotes [q] *)
Definition repr_octet (q : Z) (b : byte) : str :=
  let c := b2z b in
  if (c =? q) || (c =? 92) then [92; c]
  else if c =? 9 then [92; 116] else if c =? 10 then [92; 110] else if c =? 13 then [92; 114]
  else if (32 <=? c) && (c <? 127) then [c]
  else [92; 120; hex_low (c / 16); hex_low (c mod 16)].
Definition repr_bytes (b : bytes) : str :=
  let has c := existsb (fun x => b2z x =? c) b in
  let q := if has 39 && negb (has 34) then 34 else 39 in
  98 :: q :: concat (map (repr_octet q) b) ++ [q].
(** str(x) of text and octets *)
Definition py_str (v : pyval) : str := match v with PStr s => s | PBytes b => repr_bytes b end.

(** a[k], a dict in the order of insertion *)
Fixpoint pw_get (k : str) (a : list (str * list str)) : option (list str) :=
  match a with [] => None | (x, vs) :: r => if str_eqb k x then Some vs else pw_get k r end.
(** ldap2passwd.py 9-13: the dict; [a] is what it has so far *)
Fixpoint pw_dict (l : list (pyval * list pyval)) (a : list (str * list str)) : res (list (str * list str)) :=
  match l with
  | [] => Ok a
  | (k, vs) :: r =>
      match pw_get (py_str k) a with
      | Some _ => Err EAssert
      | None => pw_dict r (a ++ [(py_str k, map py_str vs)])
      end
  end.
(** vs[0] *)
Definition first_of (vs : list str) : res str := match vs with v :: _ => Ok v | [] => Err EIndex end.
(** a[k][0] *)
Definition pw_need (k : str) (a : list (str * list str)) : res str :=
  match pw_get k a with Some vs => first_of vs | None => Err EKey end.
(** a.get(k, default) *)
Definition pw_or (k : str) (a : list (str * list str)) (d : list str) : list str :=
  match pw_get k a with Some vs => vs | None => d end.
(** c.join(l) for one character *)
Fixpoint join_on (c : Z) (l : list str) : str :=
  match l with [] => [] | [s] => s | s :: r => s ++ c :: join_on c r end.
Section Passwd.
  Variable lower : str -> str.
  Variable oc_first : bool.
  (** ldap2passwd.py 8-27: _cbSearch(obj), what it prints; obj.items() is that of entry.py (the entry
      is fresh, so ldapsyntax.py does not refuse) *)
  Definition passwd_line (e : entry) : res str :=
    do l <- items lower oc_first e;
    do a <- pw_dict l [];
    do uid <- pw_need (S_ "uid") a;
    do num <- pw_need (S_ "uidNumber") a;
    do gid <- pw_need (S_ "gidNumber") a;
    do gecos <- first_of (pw_or (S_ "gecos") a (pw_or (S_ "cn") a [[]]));
    do home <- pw_need (S_ "homeDirectory") a;
    do shell <- first_of (pw_or (S_ "loginShell") a [[]]);
    Ok (join_on 58 [uid; S_ "x"; num; gid; gecos; home; shell] ++ [10]).
End Passwd.

(** ** Networks *)
(** ldap2dnszones.py 9-10: formatIPAddress(name, ip) *)
Definition format_ip (name ip : str) : str := name ++ [9] ++ S_ "IN A" ++ [9] ++ ip ++ [10].
(** ldap2dnszones.py 13-17: formatPTR(name, ip) *)
Definition format_ptr (name ip : str) : str :=
  join_dots (rev (split_dots ip) ++ [S_ "in-addr.arpa."]) ++ [9] ++ S_ "IN PTR" ++ [9] ++ name ++ S_ "." ++ [10].
(** ldap2dnszones.py 62-69: Net *)
Record net := mkNet { n_dn : str; n_name : str; n_address : str; n_mask : str }.
Section Net.
  Variable io : str -> res Z.     (** int() outside plain decimals, as in UtilModel *)
  Variable other : str -> res Z.  (** inet_aton outside dotted quads, as in UtilModel *)
  (** ldap2maradns.py 63-69: isInNet *)
  Definition in_net_raw (n : net) (ip : str) : res bool :=
    do a <- aton io other (n_address n);
    do m <- aton io other (n_mask n);
    do i <- aton io other ip;
    Ok (Z.land i m =? a).
  (** ldap2dnszones.py 71-82: isInNet; the exceptions of aton are taken to be OSError *)
  Definition in_net (n : net) (ip : str) : bool :=
    match in_net_raw n ip with Ok b => b | Err _ => false end.
  (** ldap2dnszones.py 84-95: getForward *)
  Definition net_forward (n : net) : res str :=
    do ip <- aton io other (n_address n);
    do m <- aton io other (n_mask n);
    do ipmask <- ntoa m;
    do broadcast <- ntoa (Z.lor ip (Z.lnot m));
    Ok (S_ "; " ++ n_dn n ++ [10] ++ format_ip (n_name n) (n_address n) ++
        format_ip (S_ "netmask." ++ n_name n) ipmask ++ format_ip (S_ "broadcast." ++ n_name n) broadcast).
  (** ldap2dnszones.py 97-106: getReverse *)
  Definition net_reverse (n : net) (domain : str) : res str :=
    do ip <- aton io other (n_address n);
    do m <- aton io other (n_mask n);
    do broadcast <- ntoa (Z.lor ip (Z.lnot m));
    Ok (S_ "; " ++ n_dn n ++ [10] ++ format_ptr (n_name n ++ S_ "." ++ domain) (n_address n) ++
        format_ptr (S_ "broadcast." ++ n_name n ++ S_ "." ++ domain) broadcast).
End Net.
