(** C61-C64, C66, C70: number allocation, netmasks, error codes, overrides, Samba identifiers. *)
From Verif Require Import Base BaseFacts Utf8Model DnModel DnSpec UtilModel UtilSpec UtilProofs.

(** C61. With finitely many used numbers, the search ends after finitely many guesses with a free
    number that is not below the minimum, and is the minimum or follows a used number. A maximum that
    is free and above the minimum is respected. *)
Theorem C61_free_number_partial : forall (used : Z -> bool) (K : Z) (mn mx : option Z),
  (forall k, K < k -> used k = false) ->
  let m0 := match mn with Some m => m | None => 0 end in
  match mx with Some m => m0 < m /\ used m = false | None => True end ->
  exists f r, (forall g, (f <= g)%nat -> start_guessing used g mn mx = Ok r) /\ first_free used m0 r /\
    match mx with Some m => r <= m | None => True end.
Proof. exact free_number. Qed.
Print Assumptions C61_free_number_partial.
(** A maximum that is in use is handed out without asking. *)
Theorem C61_used_maximum_refuted : exists (used : Z -> bool) (mn mx r : Z) (f : nat),
  mn < mx /\ start_guessing used f (Some mn) (Some mx) = Ok r /\ used r = true.
Proof. exists (fun k => k <=? 20), 5, 10, 10, 10%nat. split; [lia|]. split; vm_compute; reflexivity. Qed.
Print Assumptions C61_used_maximum_refuted.
(** With a maximum just below the minimum the guessing never ends. *)
Theorem C61_endless_refuted : exists (used : Z -> bool) (mn mx : Z), forall f, start_guessing used f (Some mn) (Some mx) = Err EFuel.
Proof. exists (fun k => k =? 6), 6, 5. exact (guess_stuck (fun k => k =? 6) 5 eq_refl eq_refl). Qed.
Print Assumptions C61_endless_refuted.
Example C61_case : (forall k, 3200 < k -> (1000 <=? k) && (k <=? 3200) && negb (k =? 1700) = false) /\
  start_guessing (fun k => (1000 <=? k) && (k <=? 3200) && negb (k =? 1700)) 40 (Some 1000) None = Ok 3201 /\
  start_guessing (fun k => (1000 <=? k) && (k <=? 3200) && negb (k =? 1700)) 40 (Some 1000) (Some 2400) <> Err EFuel.
Proof.
  split; [intros k H; destruct (Z.leb_spec k 3200); [lia|]; now rewrite andb_false_r|]. split; [vm_compute; reflexivity|]. vm_compute. discriminate.
Qed.

(** C62. Prefix lengths as numbers and as dotted netmasks convert back to themselves. [io] and [other]
    stand for what int() and inet_aton do outside plain decimals and dotted quads. *)
Theorem C62_netmask_roundtrip : forall (io other : str -> res Z) (n : Z), int_no_dot io -> 0 <= n <= 32 ->
  netmaskToNumbits io other (dec n) = Ok n /\
  exists t, ntoa (mask n) = Ok t /\ aton io other t = Ok (mask n) /\ netmaskToNumbits io other t = Ok n.
Proof. intros io other n IO. exact (netmask_roundtrip io other IO n). Qed.
Print Assumptions C62_netmask_roundtrip.
(** Every other 32-bit mask is refused. *)
Theorem C62_bad_netmask_refused : forall (io other : str -> res Z) (b : Z), int_no_dot io -> 0 <= b < 2 ^ 32 ->
  (forall n, 0 <= n <= 32 -> b <> mask n) ->
  exists t, ntoa b = Ok t /\ aton io other t = Ok b /\ netmaskToNumbits io other t = Err (EUser 2).
Proof. intros io other b IO. exact (netmask_reject io other IO b). Qed.
Print Assumptions C62_bad_netmask_refused.
(** A number of bits gives that many ones followed by zeros; more than 32 are taken as 32. *)
Theorem C62_numbits_mask : forall n, aton_numbits n = mask (Z.max 0 (Z.min n 32)).
Proof. exact aton_numbits_mask. Qed.
Print Assumptions C62_numbits_mask.
Definition c62_io : str -> res Z := fun _ => Err EValue.
Example C62_case : int_no_dot c62_io /\ netmaskToNumbits c62_io c62_io (S_ "255.255.240.0") = Ok 20 /\ mask 20 = 4294963200 /\
  netmaskToNumbits c62_io c62_io (S_ "255.255.240.1") = Err (EUser 2) /\ ntoa (mask 25) = Ok (S_ "255.255.255.128").
Proof. split; [intros s _; reflexivity|]. split; [vm_compute; reflexivity|]. split; [vm_compute; reflexivity|]. split; vm_compute; reflexivity. Qed.

(** C63. For every result code of RFC 4511 but success the exception has this code and message. *)
Theorem C63_error_codes_partial : forall (c : Z) (m : option pyval), rfc_code c -> c <> 0 ->
  le_result (err_get c m) = Some c /\ le_msg (err_get c m) = m /\ le_code (err_get c m) = None /\ exists n, le_name (err_get c m) = Some n.
Proof. exact err_get_known. Qed.
Print Assumptions C63_error_codes_partial.
(** Exactly these codes are known, and their names are all different. *)
Theorem C63_known_codes : (forall c, rfc_code c <-> exists n, err_name c = Some n) /\
  forall a b n, err_name a = Some n -> err_name b = Some n -> a = b.
Proof. exact (conj err_known err_name_inj). Qed.
Print Assumptions C63_known_codes.
(** For an unknown code the attribute resultCode, which is what gets relayed, is None. *)
Theorem C63_unknown_code_refuted : forall (c : Z) (m : option pyval), ~ rfc_code c ->
  le_result (err_get c m) = None /\ le_code (err_get c m) = Some c /\ le_msg (err_get c m) = m.
Proof. exact err_get_unknown. Qed.
Print Assumptions C63_unknown_code_refuted.
Example C63_case : rfc_code 49 /\ ~ rfc_code 118 /\ err_wire (err_get 49 (Some (PBytes (B "no")))) = Ok (B "invalidCredentials: no") /\
  err_wire (err_get 118 None) = Ok (B "unknownError(118)").
Proof. split; [unfold rfc_code; lia|]. split; [unfold rfc_code; lia|]. split; vm_compute; reflexivity. Qed.

(** C64. The override found is that of the nearest ancestor-or-self that the dict has a key for. *)
Theorem C64_nearest_override_partial : forall (lower : str -> str) (hs : str -> Z) (hb : bytes -> Z) (V : Type) (o : list (okey * V)) (d : dn),
  (forall k, skipn k d <> [[]]) ->
  nearest (fun d => over_get lower hs hb d o) d (find_override lower hs hb o d).
Proof. intros lower hs hb V. exact (@find_override_nearest lower hs hb V). Qed.
Print Assumptions C64_nearest_override_partial.
(** For a dict with text keys, having a key means having the text of the DN. *)
Theorem C64_text_keys_partial : forall (lower : str -> str) (hs : str -> Z) (hb : bytes -> Z) (V : Type) (o : list (str * V)) (d : dn) (v : V),
  NoDup (map fst o) ->
  (over_get lower hs hb d (map (fun x => (KStr (fst x), snd x)) o) = Some v <-> In (dn_text d, v) o).
Proof. intros lower hs hb V. exact (@over_get_text lower hs hb V). Qed.
Print Assumptions C64_text_keys_partial.
(** A key that is an equal DN in other case is not found, unless the hashes happen to be the same. *)
Theorem C64_case_refuted : exists (d k : dn), dn_eqb ascii_lower d k = true /\
  forall hs hb, hs (dn_text k) <> hs (dn_text d) -> find_override ascii_lower hs hb [(KDn k, 1)] d = None.
Proof.
  exists [[mkAtv (S_ "dc") (S_ "com")]], [[mkAtv (S_ "DC") (S_ "com")]]. split; [vm_compute; reflexivity|]. intros hs hb N.
  unfold find_override, over_get, find, okey_match, okey_hash. cbn [fst]. apply Z.eqb_neq in N. rewrite N. cbn [andb].
  match goal with |- context [okey_eq ascii_lower ?x ?y] => change (okey_eq ascii_lower x y) with false end. rewrite andb_false_r. reflexivity.
Qed.
Print Assumptions C64_case_refuted.
(** The host and the port of the override are used where given, else those of the SRV record; no
    query is made exactly when both are given. *)
Theorem C64_server_picked : forall (H : Type) (ov : option (option H * option Z)) (srv : H * Z),
  pick_server ov true srv =
    Ok (match ov with Some (Some h, _) => h | _ => fst srv end, match ov with Some (_, Some p) => p | _ => snd srv end) /\
  (query_needed ov = false <-> exists h p, ov = Some (Some h, Some p)).
Proof.
  intros H [([h|] & [p|])|] srv; (split; [reflexivity|]); cbn; (split; [intros E|intros (h' & p' & E)]); try discriminate; eauto.
Qed.
Print Assumptions C64_server_picked.
Definition c64_dn : dn := [[mkAtv (S_ "cn") (S_ "x")]; [mkAtv (S_ "ou") (S_ "p")]; [mkAtv (S_ "dc") (S_ "com")]].
Example C64_case : (forall k, skipn k c64_dn <> [[]]) /\
  find_override ascii_lower zlen zlen (map (fun x => (KStr (fst x), snd x)) [(S_ "dc=com", 1); (S_ "ou=p,dc=com", 2); (S_ "", 3)]) c64_dn = Some 2 /\
  find_override ascii_lower zlen zlen [(KBytes (B "dc=com"), 1)] c64_dn = Some 1.
Proof.
  split; [intros [|[|[|k]]]; [discriminate..|]; cbn; now rewrite skipn_nil|]. split; vm_compute; reflexivity.
Qed.

(** C66. For sambaAccount ([sam] = None) and sambaSamAccount with a domain SID: equal user identifiers
    come from equal uid numbers, equal group identifiers from equal gid numbers, and no user identifier
    equals a group identifier. [v] and [w] are the attributes of any two entries. *)
Theorem C66_samba_ids : forall (io : str -> res Z) (sam : option str) (v w : str -> option (list str)) (k k' : str) (i i' : list str),
  let user v := match sam with None => samba_notify io v (S_ "uidNumber") | Some sid => sam_notify io v sid None (S_ "uidNumber") end in
  let group v := match sam with None => samba_notify io v (S_ "gidNumber") | Some sid => sam_notify io v sid None (S_ "gidNumber") end in
  (user v = Ok (Some (k, i)) -> user w = Ok (Some (k', i')) -> i = i' -> single io v (S_ "uidNumber") = single io w (S_ "uidNumber")) /\
  (group v = Ok (Some (k, i)) -> group w = Ok (Some (k', i')) -> i = i' -> single io v (S_ "gidNumber") = single io w (S_ "gidNumber")) /\
  (user v = Ok (Some (k, i)) -> group w = Ok (Some (k', i')) -> i <> i').
Proof. exact samba_ids. Qed.
Print Assumptions C66_samba_ids.
Example C66_case : let v k := if str_eqb k (S_ "uidNumber") || str_eqb k (S_ "gidNumber") then Some [S_ "1000"] else None in
  samba_notify c62_io v (S_ "uidNumber") = Ok (Some (S_ "rid", [S_ "3000"])) /\
  sam_notify c62_io v (S_ "S-1-5") None (S_ "gidNumber") = Ok (Some (S_ "sambaPrimaryGroupSID", [S_ "S-1-5-3001"])).
Proof. split; vm_compute; reflexivity. Qed.

(** C70. The zone name of a network with at least 8 bits: the octets that the mask covers, reversed,
    after "octet/bits" when the mask ends inside an octet. *)
Theorem C70_zone_name_partial : forall (io other : str -> res Z) (a n : Z) (ta tm : str), int_no_dot io ->
  0 <= a < 2 ^ 32 -> 8 <= n <= 32 -> ntoa a = Ok ta -> ntoa (mask n) = Ok tm ->
  let os := map dec (quad (Z.land a (mask n))) in
  let full := rev (firstn (Z.to_nat (n / 8)) os) in
  ptrSoaName io other ta tm = Ok (join_dots (if n mod 8 =? 0 then full else (nth (Z.to_nat (n / 8)) os [] ++ 47 :: dec n) :: full) ++ S_ ".in-addr.arpa.").
Proof. intros io other a n ta tm IO. exact (zone_name io other IO a n ta tm). Qed.
Print Assumptions C70_zone_name_partial.
(** Below 8 bits all four octets get into the name. *)
Theorem C70_short_prefix_refuted : exists (io other : str -> res Z), int_no_dot io /\
  ptrSoaName io other (S_ "10.1.2.3") (S_ "7") = Ok (S_ "10/7.0.0.0.10.in-addr.arpa.").
Proof. exists c62_io, c62_io. split; [intros s _; reflexivity|]. vm_compute. reflexivity. Qed.
Print Assumptions C70_short_prefix_refuted.
Example C70_case : ptrSoaName c62_io c62_io (S_ "10.1.2.131") (S_ "255.255.255.128") = Ok (S_ "128/25.2.1.10.in-addr.arpa.") /\
  ptrSoaName c62_io c62_io (S_ "10.1.2.131") (S_ "16") = Ok (S_ "1.10.in-addr.arpa.").
Proof. split; vm_compute; reflexivity. Qed.
