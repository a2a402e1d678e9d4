(** Property theorems for the BER layer: C01, C02, C03, C04, C05. *)
From Verif Require Import BaseFacts BerModel BerSpec BerProofs LdapModel LdapSpec LdapProofs.

(** C01. Every integer has an encoding; the encoding is the shortest two's complement form
    of that integer and decodes to it. *)
Theorem C01_integer_round_trip : forall i : Z,
  exists w, int2ber true i = Ok w /\ ber2int true w = Ok i /\ twos_value w = i /\ shortest w.
Proof. exact int2ber_full. Qed.
Print Assumptions C01_integer_round_trip.
(** The decoder computes the two's complement value of any non-empty octets. *)
Theorem C01_decoder_is_twos_complement : forall w : bytes,
  w <> [] -> ber2int true w = Ok (twos_value w).
Proof. exact ber2int_signed. Qed.
Print Assumptions C01_decoder_is_twos_complement.
Example C01_case : int2ber true (-129) = Ok [xff; x7f] /\ ber2int true [xff; x7f] = Ok (-129)
  /\ int2ber true 128 = Ok [x00; x80] /\ ber2int true [x00; x00; x05] = Ok 5.
Proof. vm_compute. auto. Qed.

(** C02. *)
Theorem C02_length_round_trip : forall (n : Z) (w pre rest : bytes),
  int2berlen n = Ok w -> berDecodeLength (pre ++ w ++ rest) (zlen pre) = Ok (n, zlen w).
Proof. exact (fun n w pre rest H => proj2 (proj2 (int2berlen_spec n w H)) pre rest). Qed.
Print Assumptions C02_length_round_trip.
Theorem C02_length_encodes : forall n : Z, 0 <= n < 256 ^ 127 -> exists w, int2berlen n = Ok w.
Proof. exact int2berlen_total. Qed.
Print Assumptions C02_length_encodes.
Theorem C02_length_refuses : forall n : Z, 256 ^ 127 <= n -> int2berlen n = Err EAssert.
Proof. exact int2berlen_refuses. Qed.
Print Assumptions C02_length_refuses.
Example C02_case : int2berlen 127 = Ok [x7f] /\ int2berlen 128 = Ok [x81; x80]
  /\ int2berlen 65536 = Ok [x83; x01; x00; x00]
  /\ berDecodeLength [x30; x82; x01; x00; xff] 1 = Ok (256, 3).
Proof. vm_compute. auto. Qed.

(** C03. *)
Theorem C03_value_round_trip : forall (v : value) (w rest : bytes),
  toWire (value_obj v) = Ok w ->
  decode ctx_ber (w ++ rest) = Ok (Some (value_obj v), zlen w).
Proof. exact (fun v w rest H => reads_decode _ _ _ rest (value_reads v w H)). Qed.
Print Assumptions C03_value_round_trip.
(** Encoding a value only fails above the limit of BER lengths. *)
Theorem C03_value_encodes : forall v : value,
  obj_size (value_obj v) < 256 ^ 127 -> exists w, toWire (value_obj v) = Ok w.
Proof. exact value_encodes. Qed.
Print Assumptions C03_value_encodes.
Definition c03_value := USeq [UInt (-300); USet [UStr (B "abc"); UNull]; UBool true; USeq [UEnum 7]].
Example C03_case : exists w, toWire (value_obj c03_value) = Ok w /\ zlen w = 23 /\
  decode ctx_ber (w ++ B "tail") = Ok (Some (value_obj c03_value), 23).
Proof. eexists. split; [vm_compute; reflexivity|]. vm_compute. auto. Qed.

(** C04. For any object whatever and any decoder context. *)
Theorem C04_prefix_is_insufficient : forall (o : obj) (w p : bytes) (c : ctx),
  toWire o = Ok w -> proper_prefix p w -> p <> [] -> decode c p = Err EInsufficient.
Proof. exact toWire_prefix. Qed.
Print Assumptions C04_prefix_is_insufficient.
Example C04_case : exists w, toWire (value_obj c03_value) = Ok w /\
  decode ctx_ber (ztake 22 w) = Err EInsufficient /\ decode ctx_ber (ztake 1 w) = Err EInsufficient.
Proof. eexists. split; [vm_compute; reflexivity|]. vm_compute. auto. Qed.

(** C05. For any bytes, any context, and any classes ([lookup], [inh], [from]). *)
Theorem C05_progress_and_bounds :
  forall (ctx cls obj : Type) (lookup : ctx -> Z -> option cls) (inh : ctx -> ctx)
         (from : cls -> Z -> bytes -> ctx -> res obj) (c : ctx) (m : bytes) (o : option obj) (n : Z),
  m <> [] -> berDecodeObject lookup inh from c m = Ok (o, n) -> 2 <= n <= zlen m.
Proof. exact @dec_bounds. Qed.
Print Assumptions C05_progress_and_bounds.
(** Decoding a list of elements ends: the loop never runs out of its bound. *)
Theorem C05_list_decoding_ends :
  forall (ctx cls obj : Type) (lookup : ctx -> Z -> option cls) (inh : ctx -> ctx)
         (from : cls -> Z -> bytes -> ctx -> res obj) (c : ctx) (m : bytes),
  (forall k i x d, from k i x d <> Err EFuel) ->
  berDecodeMultiple lookup inh from m c <> Err EFuel.
Proof. exact @decs_no_fuel. Qed.
Print Assumptions C05_list_decoding_ends.
(** Decoding a whole LDAP message, nested as deep as hostile input likes, ends too. *)
Theorem C05_message_decoding_ends : forall (c : ctx) (m : bytes), decode c m <> Err EFuel.
Proof. exact decode_nofuel. Qed.
Print Assumptions C05_message_decoding_ends.
Example C05_case :
  decode ctx_top [x3f; x00; x30] = Ok (None, 2) /\ decode ctx_top [x30; x81] = Err EInsufficient.
Proof. vm_compute. auto. Qed.
