(** Model of ldaptor/protocols/ldap/ldif.py, ldifprotocol.py, ldifdelta.py, and of the LDIF methods
    of ldaptor/entry.py and ldaptor/delta.py. *)
From Verif Require Import Base Utf8Model DnModel EntryModel UtilModel.

(** The bytes written "\n", " ", ":" and "=". *)
Definition NL : byte := z2b 10.
Definition SP : byte := z2b 32.
Definition COLON : byte := z2b 58.
Definition PAD : byte := z2b 61.

(** ** base64 (the modules base64 and binascii of Python, not in /repo) *)
(** The character of a 6 bit number (RFC 4648, table 1) *)
Definition b64_char (n : Z) : byte :=
  z2b (if n <? 26 then 65 + n else if n <? 52 then 71 + n else if n <? 62 then n - 4
       else if n =? 62 then 43 else 47).
Definition b64_val (c : byte) : option Z :=
  let z := b2z c in
  if (65 <=? z) && (z <=? 90) then Some (z - 65)
  else if (97 <=? z) && (z <=? 122) then Some (z - 71)
  else if (48 <=? z) && (z <=? 57) then Some (z + 4)
  else if z =? 43 then Some 62 else if z =? 47 then Some 63 else None.

(** ldif.py 21-22: base64_encode(s) without its last newline. base64.encodebytes writes 57 octets
    to a line; joining the lines again gives the encoding without lines. *)
Fixpoint b64_encode (s : bytes) : bytes :=
  match s with
  | a :: b :: c :: r =>
      b64_char (b2z a / 4) :: b64_char (b2z a mod 4 * 16 + b2z b / 16)
      :: b64_char (b2z b mod 16 * 4 + b2z c / 64) :: b64_char (b2z c mod 64) :: b64_encode r
  | [a; b] => [b64_char (b2z a / 4); b64_char (b2z a mod 4 * 16 + b2z b / 16); b64_char (b2z b mod 16 * 4); PAD]
  | [a] => [b64_char (b2z a / 4); b64_char (b2z a mod 4 * 16); PAD; PAD]
  | [] => []
  end.

(** base64.decodebytes: binascii.a2b_base64 in its default mode (CPython). [q] counts the characters
    of the group, [left] the bits kept, [pads] the "=" seen; characters outside the alphabet are
    skipped; binascii.Error is a ValueError. *)
Fixpoint b64_decode_loop (s : bytes) (q left pads : Z) : res bytes :=
  match s with
  | [] => if q =? 0 then Ok [] else Err EValue
  | c :: r =>
      if beqb c PAD then
        if 2 <=? q then if 4 <=? q + (pads + 1) then Ok [] else b64_decode_loop r q left (pads + 1)
        else b64_decode_loop r q left pads
      else
        match b64_val c with
        | None => b64_decode_loop r q left pads
        | Some v =>
            if q =? 0 then b64_decode_loop r 1 v 0
            else if q =? 1 then do t <- b64_decode_loop r 2 (v mod 16) 0; Ok (z2b (left * 4 + v / 16) :: t)
            else if q =? 2 then do t <- b64_decode_loop r 3 (v mod 4) 0; Ok (z2b (left * 16 + v / 4) :: t)
            else do t <- b64_decode_loop r 0 0 0; Ok (z2b (left * 64 + v) :: t)
        end
  end.
Definition b64_decode (s : bytes) : res bytes := b64_decode_loop s 0 0 0.

(** ** Writing *)
(** ldif.py 29-34: containsNonprintable(s) *)
Definition nonprintable (b : byte) : bool :=
  (127 <? b2z b) || (b2z b =? 0) || (b2z b =? 10) || (b2z b =? 13).
Definition containsNonprintable (s : bytes) : bool := existsb nonprintable s.

(** ldif.py 40-49: the condition of attributeAsLDIF *)
Definition needs_base64 (value : bytes) : bool :=
  starts_with [z2b 0] value || starts_with [NL] value || starts_with [z2b 13] value
  || starts_with [SP] value || starts_with [COLON] value || starts_with (B "<") value
  || ends_with [SP] value || containsNonprintable value.
(** ldif.py 25-26, 37-52: attributeAsLDIF_base64, attributeAsLDIF, after to_bytes of both arguments *)
Definition attr_line (attribute value : bytes) : bytes :=
  if needs_base64 value then attribute ++ B ":: " ++ b64_encode value ++ [NL]
  else attribute ++ B ": " ++ value ++ [NL].
Definition attributeAsLDIF (attribute value : pyval) : res bytes :=
  do a <- to_bytes attribute; do v <- to_bytes value; Ok (attr_line a v).

(** ldif.py 57-59: the loops of asLDIF *)
Definition values_ldif (k : pyval) (vs : list pyval) : res bytes :=
  do l <- mapR (attributeAsLDIF k) vs; Ok (concat l).
Definition attrs_ldif (attributes : list (pyval * list pyval)) : res bytes :=
  do l <- mapR (fun kv => values_ldif (fst kv) (snd kv)) attributes; Ok (concat l).
(** ldif.py 55-61: asLDIF(dn, attributes) *)
Definition asLDIF (dn : pyval) (attributes : list (pyval * list pyval)) : res bytes :=
  do d <- to_bytes dn; do a <- attrs_ldif attributes; Ok (B "dn: " ++ d ++ [NL] ++ a ++ [NL]).
(** ldif.py 64-72: _header, manyAsLDIF(objects) *)
Definition ldif_header : bytes := B "version: 1" ++ [NL; NL].
Definition manyAsLDIF (objects : list (pyval * list (pyval * list pyval))) : res bytes :=
  do l <- mapR (fun o => asLDIF (fst o) (snd o)) objects; Ok (ldif_header ++ concat l).

(** list.sort() of text and bytes: text and bytes cannot be compared with each other (TypeError;
    a sort of more than one element compares across any partition) *)
Definition all_str (l : list pyval) : bool := forallb (fun v => match v with PStr _ => true | _ => false end) l.
Definition all_bytes (l : list pyval) : bool := forallb (fun v => match v with PBytes _ => true | _ => false end) l.
Definition pyval_leb (a b : pyval) : bool :=
  match a, b with
  | PStr s, PStr t => str_leb s t
  | PBytes s, PBytes t => bytes_leb s t
  | _, _ => false
  end.
Definition sort_values (l : list pyval) : res (list pyval) :=
  if all_str l || all_bytes l then Ok (sort_by pyval_leb l) else Err EType.

Section Ldif.
  Variable lower : str -> str.               (** str.lower() *)
  Variable io : Z -> Z -> res Z.             (** int(two characters, 16), see DnModel *)
  Variable vio : str -> res Z.               (** int(bytes) outside plain decimals, see UtilModel *)
  (** entry.py 38: iteration order of the set _object_class_keys *)
  Variable oc_str_first : bool.

  Definition oc_keys : list pyval :=
    if oc_str_first then [PStr (S_ "objectClass"); PBytes (B "objectClass")]
    else [PBytes (B "objectClass"); PStr (S_ "objectClass")].
  (** entry.py 39: key.lower() in _object_class_lower_keys *)
  Definition is_oc (k : pyval) : bool :=
    mem (lowv lower k) [PStr (S_ "objectclass"); PBytes (B "objectclass")].

  (** entry.py 121-140: toWire() *)
  Definition oc_items (e : entry) : res (list (pyval * list pyval)) :=
    mapR (fun k => do vs <- sort_to_bytes (match dict_get lower k (e_attrs e) with Some a => s_vals a | None => [] end);
                   Ok (k, vs)) oc_keys.
  Definition other_items (e : entry) : res (list (pyval * list pyval)) :=
    do items <- mapR (fun k => do a <- getitem lower k e; Ok (k, s_vals a)) (keys_of e);
    do kb <- mapR (fun kv => do b <- to_bytes (fst kv); Ok (b, kv)) items;
    mapR (fun kv => do vs <- sort_values (snd kv); Ok (fst kv, vs))
      (List.filter (fun kv => negb (is_oc (fst kv)))
         (map snd (sort_by (fun x y => bytes_leb (fst x) (fst y)) kb))).
  Definition entry_items (e : entry) : res (list (pyval * list pyval)) :=
    do a <- oc_items e; do b <- other_items e; Ok (a ++ b).
  Definition entry_toWire (e : entry) : res bytes :=
    do a <- entry_items e; asLDIF (PStr (dn_text (e_dn e))) a.

  (** delta.py 61-69, 82-90, 105-113: asLDIF of Add, Delete, Replace *)
  Definition kind_word (k : kind) : bytes :=
    match k with MAdd => B "add" | MDelete => B "delete" | MReplace => B "replace" end.
  Definition mod_asLDIF (m : delta) : res bytes :=
    do vs <- sort_values (d_vals m);
    do h <- attributeAsLDIF (PBytes (kind_word (d_kind m))) (d_key m);
    do l <- values_ldif (d_key m) vs;
    Ok (h ++ l ++ B "-" ++ [NL]).
  (** delta.py 136-143: ModifyOp.asLDIF() *)
  Definition modify_asLDIF (d : dn) (ms : list delta) : res bytes :=
    do h <- attributeAsLDIF (PStr (S_ "dn")) (PStr (dn_text d));
    do l <- mapR mod_asLDIF ms;
    Ok (h ++ attr_line (B "changetype") (B "modify") ++ concat l ++ [NL]).
  (** delta.py 279-284: DeleteOp.asLDIF() *)
  Definition delete_asLDIF (d : dn) : res bytes :=
    do h <- attributeAsLDIF (PStr (S_ "dn")) (PStr (dn_text d));
    Ok (h ++ attr_line (B "changetype") (B "delete") ++ [NL]).
  (** bytes.splitlines(): lines end at "\n", "\r" or "\r\n". [cur] is the line so far. *)
  Fixpoint splitlines_loop (s cur : bytes) : list bytes :=
    match s with
    | [] => match cur with [] => [] | _ => [rev cur] end
    | c :: r =>
        if b2z c =? 10 then rev cur :: splitlines_loop r []
        else if b2z c =? 13 then
          match r with
          | c' :: r' => if b2z c' =? 10 then rev cur :: splitlines_loop r' [] else rev cur :: splitlines_loop r []
          | [] => rev cur :: splitlines_loop r []
          end
        else splitlines_loop r (c :: cur)
    end.
  Definition splitlines (s : bytes) : list bytes := splitlines_loop s [].
  (** delta.py 227-231: AddOp.asLDIF() *)
  Definition add_asLDIF (e : entry) : res bytes :=
    do w <- entry_toWire e;
    match splitlines w with
    | [] => Err EIndex
    | l0 :: l =>
        if starts_with (B "dn:") l0
        then Ok (concat (map (fun x => x ++ [NL]) (l0 :: B "changetype: add" :: l)))
        else Err EAssert
    end.

  (** ** Reading *)
  (** The exception classes of ldifprotocol.py 19-40 and ldifdelta.py 13-38, and NotImplementedError *)
  Definition ENoColon := EUser 10.
  Definition ENonDN := EUser 11.
  Definition ESpace := EUser 12.
  Definition EVersionNaN := EUser 13.
  Definition EVersion := EUser 14.
  Definition ETruncated := EUser 15.
  Definition ENotImpl := EUser 16.
  Definition ENoChangeType := EUser 17.
  Definition EChangeType := EUser 18.
  Definition EModSpec := EUser 19.
  Definition ENoDash := EUser 20.
  Definition EOtherAttr := EUser 21.
  Definition ENoAttrs := EUser 22.
  Definition EJunk := EUser 23.

  (** ldifprotocol.py 43-45, ldifdelta.py 6-10: the modes *)
  Inductive mode := HEADER | WAIT_FOR_DN | IN_ENTRY | WAIT_FOR_CHANGETYPE | WAIT_FOR_MOD_SPEC
                  | IN_MOD_SPEC | IN_ADD_ENTRY | IN_DELETE.
  (** What gotEntry is called with *)
  Inductive record := REntry (e : entry) | RModify (d : dn) (ms : list delta) | RAdd (e : entry) | RDelete (d : dn).

  (** ldifprotocol.py 48-56 and the attributes that ldifdelta.py adds; mod_spec, mod_spec_attr and
      mod_spec_data are set and deleted together *)
  Record pstate := mkP {
    p_mode : mode;
    p_dn : option bytes;
    p_data : option (list (bytes * list bytes));
    p_last : option bytes;
    p_version : option Z;
    p_mods : option (list delta);
    p_spec : option (kind * bytes * list bytes) }.
  Definition p0 : pstate := mkP HEADER None None None None None None.
  Definition set_mode (m : mode) (s : pstate) := mkP m (p_dn s) (p_data s) (p_last s) (p_version s) (p_mods s) (p_spec s).
  Definition set_last (l : option bytes) (s : pstate) := mkP (p_mode s) (p_dn s) (p_data s) l (p_version s) (p_mods s) (p_spec s).
  Definition set_dn (d : option bytes) (x : option (list (bytes * list bytes))) (s : pstate) :=
    mkP (p_mode s) d x (p_last s) (p_version s) (p_mods s) (p_spec s).
  Definition set_mods (x : option (list delta)) (s : pstate) :=
    mkP (p_mode s) (p_dn s) (p_data s) (p_last s) (p_version s) x (p_spec s).
  Definition set_spec (x : option (kind * bytes * list bytes)) (s : pstate) :=
    mkP (p_mode s) (p_dn s) (p_data s) (p_last s) (p_version s) (p_mods s) x.
  Definition set_version (x : option Z) (s : pstate) :=
    mkP (p_mode s) (p_dn s) (p_data s) (p_last s) x (p_mods s) (p_spec s).

  (** A handler: what was passed to gotEntry, and the new state or the exception *)
  Definition out := (list record * res pstate)%type.
  Definition ok (s : pstate) : out := ([], Ok s).
  Definition fail (e : exn) : out := ([], Err e).
  Definition with_res {A} (r : res A) (f : A -> out) : out := match r with Ok a => f a | Err e => fail e end.

  (** bytes.lstrip(b" "), bytes.split(c, 1) *)
  Fixpoint lstrip (s : bytes) : bytes :=
    match s with c :: r => if beqb c SP then lstrip r else s | [] => [] end.
  Fixpoint split1 (c : byte) (s : bytes) : option (bytes * bytes) :=
    match s with
    | [] => None
    | x :: r => if beqb x c then Some ([], r)
                else match split1 c r with Some (a, b) => Some (x :: a, b) | None => None end
    end.

  (** ldifprotocol.py 77-83: parseValue(val) *)
  Definition parseValue (val : bytes) : res bytes :=
    if starts_with [COLON] val then b64_decode (lstrip (tl val))
    else if starts_with (B "<") val then Err ENotImpl
    else Ok (lstrip val).
  (** ldifprotocol.py 85-93: _parseLine(line) *)
  Definition parseLine (line : bytes) : res (bytes * bytes) :=
    match split1 COLON line with
    | None => Err ENoColon
    | Some (key, val) => do v <- parseValue val; Ok (key, v)
    end.

  (** bytes.upper() *)
  Definition upper_byte (b : byte) : byte := if (97 <=? b2z b) && (b2z b <=? 122) then z2b (b2z b - 32) else b.

  (** DistinguishedName(bytes) *)
  Definition read_dn (b : bytes) : res dn := do s <- utf8_decode b; parse_dn io s.
  (** BaseLDAPEntry(dn=self.dn, attributes=self.data) *)
  Definition read_entry (d : bytes) (data : list (bytes * list bytes)) : res entry :=
    do n <- read_dn d;
    Ok (new_entry lower n (map (fun kv => (PBytes (fst kv), map PBytes (snd kv))) data)).

  (** ldifprotocol.py 141-144: self.data[key].append(val) *)
  Fixpoint data_add (k v : bytes) (data : list (bytes * list bytes)) : list (bytes * list bytes) :=
    match data with
    | [] => [(k, [v])]
    | (k', vs) :: r => if bytes_eqb k k' then (k', vs ++ [v]) :: r else (k', vs) :: data_add k v r
    end.

  (** The class: LDIF, or LDIFDelta *)
  Variable is_delta : bool.

  (** ldifprotocol.py 110-124: state_WAIT_FOR_DN; ldifdelta.py 42-45 *)
  Definition state_WAIT_FOR_DN (s : pstate) (line : bytes) : out :=
    match p_dn s, p_data s with
    | None, None =>
        match line with
        | [] => ok s
        | _ =>
            with_res (parseLine line) (fun kv =>
              if bytes_eqb (map upper_byte (fst kv)) (B "DN")
              then ok (set_mode (if is_delta then WAIT_FOR_CHANGETYPE else IN_ENTRY) (set_dn (Some (snd kv)) (Some []) s))
              else fail ENonDN)
        end
    | _, _ => fail EAssert
    end.

  (** ldifprotocol.py 126-144: state_IN_ENTRY *)
  Definition state_IN_ENTRY (s : pstate) (line : bytes) : out :=
    match p_dn s, p_data s with
    | Some d, Some data =>
        match line with
        | [] => with_res (read_entry d data) (fun o => ([REntry o], Ok (set_dn None None (set_mode WAIT_FOR_DN s))))
        | _ => with_res (parseLine line) (fun kv => ok (set_dn (Some d) (Some (data_add (fst kv) (snd kv) data)) s))
        end
    | _, _ => fail EAssert
    end.

  (** ldifdelta.py 47-69: state_WAIT_FOR_CHANGETYPE *)
  Definition state_WAIT_FOR_CHANGETYPE (s : pstate) (line : bytes) : out :=
    match p_dn s, p_data s with
    | Some _, Some _ =>
        match line with
        | [] => fail ENoChangeType
        | _ =>
            with_res (parseLine line) (fun kv =>
              if negb (bytes_eqb (fst kv) (B "changetype")) then fail ENoChangeType
              else if bytes_eqb (snd kv) (B "modify") then ok (set_mode WAIT_FOR_MOD_SPEC (set_mods (Some []) s))
              else if bytes_eqb (snd kv) (B "add") then ok (set_mode IN_ADD_ENTRY s)
              else if bytes_eqb (snd kv) (B "delete") then ok (set_mode IN_DELETE s)
              else if bytes_eqb (snd kv) (B "modrdn") || bytes_eqb (snd kv) (B "moddn") then fail ENotImpl
              else fail EChangeType)
        end
    | _, _ => fail EAssert
    end.

  (** ldifdelta.py 71-75: MOD_SPEC_TO_DELTA *)
  Definition mod_spec_kind (k : bytes) : option kind :=
    if bytes_eqb k (B "add") then Some MAdd else if bytes_eqb k (B "delete") then Some MDelete
    else if bytes_eqb k (B "replace") then Some MReplace else None.

  (** ldifdelta.py 77-96: state_WAIT_FOR_MOD_SPEC; DistinguishedName(None) and None[:] are TypeErrors,
      in modes that are not reached *)
  Definition state_WAIT_FOR_MOD_SPEC (s : pstate) (line : bytes) : out :=
    match line with
    | [] =>
        match p_dn s, p_mods s with
        | Some d, Some ms =>
            with_res (read_dn d) (fun n =>
              ([RModify n ms], Ok (set_mods None (set_dn None None (set_mode WAIT_FOR_DN s)))))
        | _, _ => fail EType
        end
    | _ =>
        with_res (parseLine line) (fun kv =>
          match mod_spec_kind (fst kv) with
          | None => fail EModSpec
          | Some k => ok (set_mode IN_MOD_SPEC (set_spec (Some (k, snd kv, [])) s))
          end)
    end.

  (** ldifdelta.py 98-119: state_IN_MOD_SPEC *)
  Definition state_IN_MOD_SPEC (s : pstate) (line : bytes) : out :=
    match p_spec s with
    | None => fail EAttr
    | Some (k, attr, vals) =>
        if bytes_eqb line [] then fail ENoDash
        else if bytes_eqb line (B "-") then
          match p_mods s with
          | None => fail EAttr
          | Some ms =>
              ok (set_mode WAIT_FOR_MOD_SPEC (set_spec None
                    (set_mods (Some (ms ++ [new_delta k (PBytes attr) (map PBytes vals)])) s)))
          end
        else
          with_res (parseLine line) (fun kv =>
            if negb (bytes_eqb (fst kv) attr) then fail EOtherAttr
            else ok (set_spec (Some (k, attr, vals ++ [snd kv])) s))
    end.

  (** ldifdelta.py 121-141: state_IN_ADD_ENTRY *)
  Definition state_IN_ADD_ENTRY (s : pstate) (line : bytes) : out :=
    match p_dn s, p_data s with
    | Some d, Some data =>
        match line with
        | [] =>
            match data with
            | [] => fail ENoAttrs
            | _ => with_res (read_entry d data) (fun o => ([RAdd o], Ok (set_dn None None (set_mode WAIT_FOR_DN s))))
            end
        | _ => with_res (parseLine line) (fun kv => ok (set_dn (Some d) (Some (data_add (fst kv) (snd kv) data)) s))
        end
    | _, _ => fail EAssert
    end.

  (** ldifdelta.py 143-155: state_IN_DELETE *)
  Definition state_IN_DELETE (s : pstate) (line : bytes) : out :=
    match p_dn s with
    | Some d =>
        match line with
        | [] => with_res (read_dn d) (fun n => ([RDelete n], Ok (set_dn None None (set_mode WAIT_FOR_DN s))))
        | _ => fail EJunk
        end
    | None => fail EAssert
    end.

  (** ldifprotocol.py 95-108: state_HEADER. The line passed on is not a comment, and is handled in
      the mode WAIT_FOR_DN. *)
  Definition state_HEADER (s : pstate) (line : bytes) : out :=
    with_res (parseLine line) (fun kv =>
      if negb (bytes_eqb (fst kv) (B "version")) then state_WAIT_FOR_DN (set_mode WAIT_FOR_DN s) line
      else match py_int vio (map b2z (snd kv)) with
           | Ok v => if 1 <? v then fail EVersion else ok (set_version (Some v) (set_mode WAIT_FOR_DN s))
           | Err EValue => fail EVersionNaN
           | Err e => fail e
           end).

  (** ldifprotocol.py 58-62: logicalLineReceived(line) *)
  Definition logicalLineReceived (s : pstate) (line : bytes) : out :=
    if starts_with (B "#") line then ok s
    else match p_mode s with
         | HEADER => state_HEADER s line
         | WAIT_FOR_DN => state_WAIT_FOR_DN s line
         | IN_ENTRY => state_IN_ENTRY s line
         | WAIT_FOR_CHANGETYPE => state_WAIT_FOR_CHANGETYPE s line
         | WAIT_FOR_MOD_SPEC => state_WAIT_FOR_MOD_SPEC s line
         | IN_MOD_SPEC => state_IN_MOD_SPEC s line
         | IN_ADD_ENTRY => state_IN_ADD_ENTRY s line
         | IN_DELETE => state_IN_DELETE s line
         end.

  (** a; b *)
  Definition andThen (x : out) (f : pstate -> out) : out :=
    match x with
    | (o, Ok s) => let (o', r) := f s in (o ++ o', r)
    | (o, Err e) => (o, Err e)
    end.

  (** ldifprotocol.py 64-75: lineReceived(line) *)
  Definition lineReceived (s : pstate) (line : bytes) : out :=
    if starts_with [SP] line then
      match p_last s with
      | None => fail ESpace
      | Some l => ok (set_last (Some (l ++ tl line)) s)
      end
    else
      andThen (match p_last s with Some l => logicalLineReceived s l | None => ok s end) (fun s =>
        match line with
        | [] => andThen (logicalLineReceived (set_last (Some line) s) line) (fun s => ok (set_last None s))
        | _ => ok (set_last (Some line) s)
        end).

  (** twisted.protocols.basic.LineReceiver (not in /repo): MAX_LENGTH, and dataReceived in line mode
      without pausing. The parsers are fed from files and have no transport: lineLengthExceeded
      raises AttributeError. *)
  Definition MAX_LENGTH : Z := 16384.
  Fixpoint recv_lines (fuel : nat) (buffer : bytes) (s : pstate) : list record * res (bytes * pstate) :=
    match fuel with
    | O => ([], Err EFuel)
    | S f =>
        match buffer with
        | [] => ([], Ok ([], s))
        | _ =>
            match split1 NL buffer with
            | None => if MAX_LENGTH + 1 <=? zlen buffer then ([], Err EAttr) else ([], Ok (buffer, s))
            | Some (line, rest) =>
                if MAX_LENGTH <? zlen line then ([], Err EAttr)
                else match lineReceived s line with
                     | (o, Err e) => (o, Err e)
                     | (o, Ok s') => let (o', r) := recv_lines f rest s' in (o ++ o', r)
                     end
            end
        end
    end.
  Definition dataReceived (c : bytes * pstate) (data : bytes) : list record * res (bytes * pstate) :=
    let b := fst c ++ data in recv_lines (S (length b)) b (snd c).
  (** Feeding the chunks of a file, as in ldifdelta.py 164-168; the first exception ends it *)
  Fixpoint feed (c : bytes * pstate) (chunks : list bytes) : list record * res (bytes * pstate) :=
    match chunks with
    | [] => ([], Ok c)
    | d :: r =>
        match dataReceived c d with
        | (o, Err e) => (o, Err e)
        | (o, Ok c') => let (o', x) := feed c' r in (o ++ o', x)
        end
    end.
  (** ldifprotocol.py 149-151: connectionLost *)
  Definition connectionLost (s : pstate) : res unit :=
    match p_mode s with WAIT_FOR_DN => Ok tt | _ => Err ETruncated end.
  (** ldifdelta.py 158-171: what gotEntry received, and the exception if any *)
  Definition parse (chunks : list bytes) : list record * res unit :=
    match feed ([], p0) chunks with
    | (o, Err e) => (o, Err e)
    | (o, Ok c) => (o, connectionLost (snd c))
    end.
End Ldif.
