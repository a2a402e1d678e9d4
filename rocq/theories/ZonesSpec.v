(** Specification for the zone files: the text of each, from the networks and the hosts. *)
From Verif Require Import Base Utf8Model DnModel EntryModel UtilModel ToolsModel ZonesModel.

Section Spec.
  Variable io : str -> res Z.
  Variable other : str -> res Z.
  Variable domain : str.
  Variable zones : list zone.

  (** A zone has a network when its mask takes the address of the network to that of the zone. *)
  Definition zone_has (z : zone) (n : net) : bool :=
    match aton io other (n_address n) with Ok ip => Z.land ip (z_mask z) =? z_address z | Err _ => false end.
  (** The home of a network: the last zone that has it *)
  Definition home_is (n : net) (o : option nat) : Prop :=
    match o with
    | Some k => (exists z, nth_error zones k = Some z /\ zone_has z n = true) /\ (forall j z, (k < j)%nat -> nth_error zones j = Some z -> zone_has z n = false)
    | None => forall j z, nth_error zones j = Some z -> zone_has z n = false
    end.
  (** The network of an address: the first that has it *)
  Definition parent_is (ns : list net) (ip : str) (o : option net) : Prop :=
    match o with
    | Some n => exists a b, ns = a ++ n :: b /\ in_net io other n ip = true /\ (forall m, In m a -> in_net io other m ip = false)
    | None => forall m, In m ns -> in_net io other m ip = false
    end.
  (** What an address adds to the forward file, to the file of the zone [k], and to the reports *)
  Inductive adds (ns : list net) (h : zhost) (ip : str) : str -> (nat -> str) -> list znote -> Prop :=
  | a_lost : parent_is ns ip None -> adds ns h ip [] (fun _ => []) [ZNoNet h ip]
  | a_forward : forall n, parent_is ns ip (Some n) -> home_is n None ->
      adds ns h ip (S_ ";  " ++ zh_dn h ++ [10] ++ format_ip (zh_name h ++ S_ "." ++ n_name n) ip ++ [10]) (fun _ => []) [ZNoPtr h ip]
  | a_both : forall n j, parent_is ns ip (Some n) -> home_is n (Some j) ->
      adds ns h ip (S_ ";  " ++ zh_dn h ++ [10] ++ format_ip (zh_name h ++ S_ "." ++ n_name n) ip ++ [10])
        (fun k => if Nat.eqb k j then S_ ";  " ++ zh_dn h ++ [10] ++ format_ptr (zh_name h ++ S_ "." ++ n_name n ++ S_ "." ++ domain) ip ++ [10] else []) [].
  Inductive adds_all (ns : list net) : list (zhost * str) -> str -> (nat -> str) -> list znote -> Prop :=
  | a_nil : adds_all ns [] [] (fun _ => []) []
  | a_cons : forall h ip l f r x f' r' x', adds ns h ip f r x -> adds_all ns l f' r' x' -> adds_all ns ((h, ip) :: l) (f ++ f') (fun k => r k ++ r' k) (x ++ x').
  Definition addresses (hs : list zhost) : list (zhost * str) := flat_map (fun h => map (pair h) (zh_ips h)) hs.
  (** The networks in the forward file, and those of one zone in its file *)
  Inductive nets_forward : list net -> str -> Prop :=
  | nf_nil : nets_forward [] []
  | nf_cons : forall n l f r, net_forward io other n = Ok f -> nets_forward l r -> nets_forward (n :: l) (f ++ [10] ++ r).
  Inductive nets_reverse (z : zone) : list net -> option str -> Prop :=
  | nr_nil : nets_reverse z [] None
  | nr_out : forall n l t, zone_has z n = false -> nets_reverse z l t -> nets_reverse z (n :: l) t
  | nr_in : forall n l f t, zone_has z n = true -> net_reverse io other n domain = Ok f -> nets_reverse z l t ->
      nets_reverse z (n :: l) (Some (f ++ [10] ++ match t with Some s => s | None => [] end)).
  (** The files and the reports *)
  Definition files_ok (ns : list net) (hs : list zhost) (st : zfiles) (notes : list znote) : Prop :=
    exists nf af ar, nets_forward ns nf /\ adds_all ns (addresses hs) af ar notes /\
      f_forward st = S_ "$ORIGIN" ++ [9] ++ domain ++ S_ "." ++ [10] ++ [10] ++ nf ++ af /\
      length (f_reverse st) = length zones /\
      forall k z, nth_error zones k = Some z -> exists t, nets_reverse z ns t /\
        nth_error (f_reverse st) k = Some (match t with Some s => Some (s ++ ar k) | None => None end).
End Spec.
