(** C104: the exporter of zone files replaces all files or none; and what there is to replace them with. *)
From Verif Require Import Base BaseFacts Utf8Model DnModel DnSpec EntryModel UtilModel UtilSpec ToolsModel ToolsSpec ToolsProofs ZonesModel ZonesSpec ZonesProofs.

(** Whatever goes wrong, at whatever time, in a search, in an entry or in an address: no file has changed, and
    the exit status is 1. *)
Theorem C104_fails : forall lower io other repr domain zones nets hosts hosts_end x,
  nets = Err x \/ (exists es, nets = Ok es /\ exists e, In e es /\ forall n, zone_net lower repr e <> Ok n) \/
  (exists e, In e hosts /\ forall h, zone_host lower repr e <> Ok h) \/ hosts_end = Err x ->
  forall forward d, finish zones forward (zones_run lower io other repr domain zones nets hosts hosts_end) d = (d, 1%Z).
Proof.
  intros lower io other repr domain zones nets hosts hosts_end x H forward d.
  destruct (zones_run lower io other repr domain zones nets hosts hosts_end) as [[st notes]|y] eqn:E; [|reflexivity]. exfalso.
  apply zones_written in E. destruct E as (es & ns & hs & -> & (u & ->) & A & B & _).
  assert (X : forall T (f : entry -> res T) l l', Forall2 (fun e n => f e = Ok n) l l' -> forall e, In e l -> exists n, f e = Ok n).
  { intros T f l l' F. induction F as [|a b l l' E0 F IH]; intros e [] ; [subst; eauto|auto]. }
  destruct H as [H|[(es' & ES & e & I & N)|[(e & I & N)|H]]]; try discriminate.
  - injection ES as <-. destruct (X _ _ _ _ A e I) as (n & Q). exact (N n Q).
  - destruct (X _ _ _ _ B e I) as (n & Q). exact (N n Q).
Qed.
Print Assumptions C104_fails.
(** What an entry must have: one name, number and mask for a network, one name and any addresses for a host. *)
Theorem C104_net : forall lower repr e n, zone_net lower repr e = Ok n <->
  exists a b c x y z, getitem lower (PStr (S_ "cn")) e = Ok a /\ getitem lower (PStr (S_ "ipNetworkNumber")) e = Ok b /\
    getitem lower (PStr (S_ "ipNetmaskNumber")) e = Ok c /\ s_vals a = [x] /\ s_vals b = [y] /\ s_vals c = [z] /\
    n = mkNet (dn_text (e_dn e)) (zshown repr x) (zshown repr y) (zshown repr z).
Proof.
  intros lower repr e n. unfold zone_net, zonly. split.
  - intro H. destruct (getitem lower (PStr (S_ "cn")) e) as [a|]; [|discriminate]. cbn [bind] in H. destruct (s_vals a) as [|x [|]] eqn:A; try discriminate.
    cbn [bind] in H. destruct (getitem lower (PStr (S_ "ipNetworkNumber")) e) as [b|]; [|discriminate]. cbn [bind] in H. destruct (s_vals b) as [|y [|]] eqn:B; try discriminate.
    cbn [bind] in H. destruct (getitem lower (PStr (S_ "ipNetmaskNumber")) e) as [c|]; [|discriminate]. cbn [bind] in H. destruct (s_vals c) as [|z [|]] eqn:C; try discriminate.
    cbn [bind] in H. injection H as <-. exists a, b, c, x, y, z. repeat (split; [assumption || reflexivity|]). reflexivity.
  - intros (a & b & c & x & y & z & -> & -> & -> & A & B & C & ->). cbn [bind]. rewrite A. cbn [bind]. rewrite B. cbn [bind]. rewrite C. reflexivity.
Qed.
Print Assumptions C104_net.
Theorem C104_host : forall lower repr e h, zone_host lower repr e = Ok h <->
  exists a b x, getitem lower (PStr (S_ "cn")) e = Ok a /\ getitem lower (PStr (S_ "ipHostNumber")) e = Ok b /\ s_vals a = [x] /\
    h = mkZhost (dn_text (e_dn e)) (zshown repr x) (map (zshown repr) (s_vals b)).
Proof.
  intros lower repr e h. unfold zone_host, zonly. split.
  - intro H. destruct (getitem lower (PStr (S_ "cn")) e) as [a|]; [|discriminate]. cbn [bind] in H. destruct (s_vals a) as [|x [|]] eqn:A; try discriminate.
    cbn [bind] in H. destruct (getitem lower (PStr (S_ "ipHostNumber")) e) as [b|]; [|discriminate]. cbn [bind] in H. injection H as <-. exists a, b, x. auto.
  - intros (a & b & x & -> & -> & A & ->). cbn [bind]. rewrite A. reflexivity.
Qed.
Print Assumptions C104_host.
(** If nothing goes wrong: the forward file and the files of the zones that were written are replaced, and
    nothing else is. *)
Theorem C104_replaced : forall zones forward st notes d, NoDup (forward :: map z_file zones) -> length (f_reverse st) = length zones ->
  let '(d', x) := finish zones forward (Ok (st, notes)) d in
  x = 0%Z /\ d' forward = Some (f_forward st) /\
  (forall k z, nth_error zones k = Some z -> exists t, nth_error (f_reverse st) k = Some t /\ d' (z_file z) = match t with Some s => Some s | None => d (z_file z) end) /\
  (forall f, f <> forward -> ~ In f (map z_file zones) -> d' f = d f).
Proof.
  intros zones forward st notes d N L. inversion N as [|a b NI ND]; subst. cbn [finish].
  assert (S0 : forall f, store forward (f_forward st) d f = if str_eqb f forward then Some (f_forward st) else d f) by reflexivity.
  split; [reflexivity|]. split; [rewrite store_all_other, S0, str_eqb_refl by assumption; reflexivity|]. split.
  - intros k z K. destruct (nth_error (f_reverse st) k) as [t|] eqn:T.
    + exists t. split; [reflexivity|]. rewrite (store_all_in zones (f_reverse st) _ k z t ND K T). destruct t; [reflexivity|]. rewrite S0.
      destruct (str_eqb (z_file z) forward) eqn:E; [|reflexivity]. apply str_eqb_eq in E. exfalso. apply NI. rewrite <- E. apply in_map. eapply nth_error_In; eauto.
    + exfalso. apply nth_error_None in T. rewrite L in T. apply nth_error_None in T. congruence.
  - intros f F1 F2. rewrite store_all_other, S0 by assumption. destruct (str_eqb f forward) eqn:E; [|reflexivity]. apply str_eqb_eq in E. congruence.
Qed.
Print Assumptions C104_replaced.
(** An address belongs to one network, and a network to one zone. *)
Theorem C104_one_parent : forall io other ns ip a b, parent_is io other ns ip a -> parent_is io other ns ip b -> a = b.
Proof. intros io other ns ip a b. apply parent_unique. Qed.
Print Assumptions C104_one_parent.
Theorem C104_one_home : forall io other zones n a b, home_is io other zones n a -> home_is io other zones n b -> a = b.
Proof. exact home_unique. Qed.
Print Assumptions C104_one_home.

(** *** What does not hold: that records are written *)
(** The broadcast address of a network cannot be computed (C90), so one network is enough for the exporter to
    fail. When it does not fail, there was no network: the forward file has its first lines only, no reverse
    file is written, and every address is reported to be in no network. *)
Theorem C104_no_records_refuted : forall lower io other repr domain zones nets hosts hosts_end st notes, (forall s z, other s = Ok z -> 0 <= z) ->
  zones_run lower io other repr domain zones nets hosts hosts_end = Ok (st, notes) ->
  nets = Ok [] /\ f_forward st = S_ "$ORIGIN" ++ [9] ++ domain ++ S_ "." ++ [10; 10] /\ (forall t, In t (f_reverse st) -> t = None) /\
  exists hs, Forall2 (fun e h => zone_host lower repr e = Ok h) hosts hs /\ notes = map (fun a => ZNoNet (fst a) (snd a)) (addresses hs).
Proof.
  intros lower io other repr domain zones nets hosts hosts_end st notes P H. apply zones_written in H.
  destruct H as (es & ns & hs & -> & _ & A & B & nf & af & ar & NF & AD & FW & L & RV).
  assert (NS : ns = []).
  { destruct NF as [|n l f r F _]; [reflexivity|]. destruct (no_zone io other n P) as [(x & E) _]. congruence. }
  subst ns. inversion A; subst. inversion NF; subst.
  assert (Q : forall l f r x, adds_all io other domain zones [] l f r x -> f = [] /\ x = map (fun a => ZNoNet (fst a) (snd a)) l).
  { clear. induction 1 as [|h ip l f r x f' r' x' A _ [-> ->]]; [auto|]. destruct A as [Q|n (a & b & E & _)|n j (a & b & E & _)]; [auto| |]; destruct a; discriminate. }
  destruct (Q _ _ _ _ AD) as [-> ->]. split; [reflexivity|]. split; [rewrite FW; now rewrite !app_nil_r|]. split; [|eauto].
  intros t T. apply In_nth_error in T. destruct T as (k & T). assert (K : (k < length zones)%nat) by (rewrite <- L; apply nth_error_Some; congruence).
  apply nth_error_Some in K. destruct (nth_error zones k) as [z|] eqn:Z0; [|congruence]. destruct (RV k z Z0) as (u & U & V). inversion U; subst u. cbn in V. rewrite V in T. now injection T as <-.
Qed.
Print Assumptions C104_no_records_refuted.
(** And without networks it does run, if the hosts can be read. *)
Theorem C104_empty : forall lower io other repr domain zones hosts hs u, Forall2 (fun e h => zone_host lower repr e = Ok h) hosts hs ->
  exists st notes, zones_run lower io other repr domain zones (Ok []) hosts (Ok u) = Ok (st, notes).
Proof. intros lower io other repr domain zones hosts hs u H. apply zones_run_runs with (ns := []) (hs := hs); [constructor|exact H|intros n []]. Qed.
Print Assumptions C104_empty.

Definition zx_err : str -> res Z := fun _ => Err EValue.
Definition zx_dn (s : string) : dn := [[mkAtv (S_ "cn") (S_ s)]; [mkAtv (S_ "dc") (S_ "com")]].
Definition zx_net : entry := new_entry ascii_lower (zx_dn "lan") [(PStr (S_ "cn"), [PStr (S_ "lan")]); (PStr (S_ "ipNetworkNumber"), [PStr (S_ "10.1.0.0")]); (PStr (S_ "ipNetmaskNumber"), [PStr (S_ "255.255.0.0")])].
Definition zx_host : entry := new_entry ascii_lower (zx_dn "a") [(PStr (S_ "cn"), [PStr (S_ "a")]); (PStr (S_ "ipHostNumber"), [PStr (S_ "10.1.0.7"); PStr (S_ "10.1.0.8")])].
Definition zx_zones : list zone := [mkZone (10 * 2 ^ 24) (255 * 2 ^ 24) (S_ "db.10")].
Definition zx_run := zones_run ascii_lower zx_err zx_err (fun _ => []) (S_ "example.com") zx_zones.
Definition zx_n : net := mkNet (dn_text (zx_dn "lan")) (S_ "lan") (S_ "10.1.0.0") (S_ "255.255.0.0").
Definition zx_h : zhost := mkZhost (dn_text (zx_dn "a")) (S_ "a") [S_ "10.1.0.7"; S_ "10.1.0.8"].
(** A network and a host, both complete: the file is not written. *)
Theorem C104_network_refuted : (exists n, zone_net ascii_lower (fun _ => []) zx_net = Ok n /\ in_net zx_err zx_err n (S_ "10.1.0.7") = true) /\
  (exists h, zone_host ascii_lower (fun _ => []) zx_host = Ok h) /\ forall d, finish zx_zones (S_ "db") (zx_run (Ok [zx_net]) [zx_host] (Ok tt)) d = (d, 1%Z).
Proof.
  split; [exists zx_n; split; vm_compute; reflexivity|]. split; [exists zx_h; vm_compute; reflexivity|]. intro d.
  assert (E : zx_run (Ok [zx_net]) [zx_host] (Ok tt) = Err (EUser 4)) by (vm_compute; reflexivity). rewrite E. reflexivity.
Qed.
Print Assumptions C104_network_refuted.
(** Without a network: the first lines, and the old reverse file stays, even if all it says is no longer so. *)
Definition zx_old : disk := fun f => if str_eqb f (S_ "db.10") then Some (S_ "old") else None.
Example C104_case : let r := zx_run (Ok []) [zx_host] (Ok tt) in
  (exists st, r = Ok (st, [ZNoNet zx_h (S_ "10.1.0.7"); ZNoNet zx_h (S_ "10.1.0.8")])) /\ NoDup (S_ "db" :: map z_file zx_zones) /\
  fst (finish zx_zones (S_ "db") r zx_old) (S_ "db") = Some (S_ "$ORIGIN" ++ [9] ++ S_ "example.com." ++ [10; 10]) /\
  fst (finish zx_zones (S_ "db") r zx_old) (S_ "db.10") = Some (S_ "old").
Proof.
  split; [exists (mkZfiles (S_ "$ORIGIN" ++ [9] ++ S_ "example.com." ++ [10; 10]) [None]); vm_compute; reflexivity|]. split; [|split; vm_compute; reflexivity].
  constructor; [intros [H|[]]; vm_compute in H; discriminate|]. constructor; [intros []|constructor].
Qed.
Example C104_fails_case : forall n, zone_net ascii_lower (fun _ => []) zx_host <> Ok n.
Proof. intros n H. vm_compute in H. discriminate. Qed.
(** Two names: the entry cannot be used, and nothing is written. *)
Example C104_two_case : forall n, zone_net ascii_lower (fun _ => []) (new_entry ascii_lower (zx_dn "lan") [(PStr (S_ "cn"), [PStr (S_ "lan"); PStr (S_ "wan")]); (PStr (S_ "ipNetworkNumber"), [PStr (S_ "10.1.0.0")]); (PStr (S_ "ipNetmaskNumber"), [PStr (S_ "255.255.0.0")])]) <> Ok n.
Proof. intros n H. vm_compute in H. discriminate. Qed.
Example C104_net_case : zone_net ascii_lower (fun _ => []) zx_net = Ok zx_n /\ zone_host ascii_lower (fun _ => []) zx_host = Ok zx_h.
Proof. split; vm_compute; reflexivity. Qed.
