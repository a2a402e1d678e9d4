(** C32: the attributes of an entry after a move in the in-memory directory. *)
From Verif Require Import Base BaseFacts Utf8Model DnModel DnSpec EntryModel EntrySpec LdifSpec InmemModel InmemSpec RdnValues PropsEntry PropsInmem.

(** After a move that succeeds the entry has the new DN, no value of the old RDN that the new one does not
    say too, every value of the new RDN, and its other values as before. No other entry has changed. *)
Theorem C32_values_partial : forall (lower : str -> str) (depth : nat) (h h' : heap) (r : ref) (d : dn) (n : node),
  move lower depth h r d = (h', Ok tt) -> nth_error h r = Some n -> octet_sets lower (n_entry n) ->
  (exists n', nth_error h' r = Some n' /\ e_dn (n_entry n') = d /\ octet_sets lower (n_entry n') /\
    forall k v, says (n_entry n') k v <-> (says (n_entry n) k v /\ ~ rdn_says (hd [] (e_dn (n_entry n))) k v) \/ rdn_says (hd [] d) k v) /\
  forall q, q <> r -> option_map n_entry (nth_error h' q) = option_map n_entry (nth_error h q).
Proof. intros lower depth h h' r d n. exact (move_values lower depth h r d h' n). Qed.
Print Assumptions C32_values_partial.

Definition mv_attrs : attrs := [(bv "CN", [bv "x"; bv "y"]); (bv "objectClass", [bv "top"])].
Definition mv_heap : heap := fst (do_hop ascii_lower x_depth (HAdd x_root (rd1 "cn" "x") mv_attrs) x_heap).
Example C32_values_case : exists n h' n', nth_error mv_heap 5%nat = Some n /\ octet_sets ascii_lower (n_entry n) /\
  move ascii_lower x_depth mv_heap 5%nat (rd1 "cn" "z" :: rd1 "ou" "a" :: x_root) = (h', Ok tt) /\
  nth_error h' 5%nat = Some n' /\ map s_vals (e_attrs (n_entry n')) = [[bv "y"; sv "z"]; [bv "top"]].
Proof.
  eexists. eexists. eexists. split; [vm_compute; reflexivity|]. split.
  - split; [repeat (apply Forall_cons; [split; [eexists; reflexivity|vm_compute; repeat constructor; intros X; repeat destruct X as [X|X]; discriminate X || exact X]|]); apply Forall_nil|vm_compute; repeat constructor; intros X; repeat destruct X as [X|X]; discriminate X || exact X].
  - split; [vm_compute; reflexivity|]. split; vm_compute; reflexivity.
Qed.
