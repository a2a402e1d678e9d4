(** Specification of what becomes of the connections to servers when the client of a proxy goes. *)
From Verif Require Import Base BerModel LdapModel ServerModel ClientModel ProxyModel SimpleProxyModel SimpleProxySpec MergerModel.

(** The server of connection [c] is not connected after its client has gone. *)
Definition server_first (c : nat) (es : list sevent) : Prop :=
  forall a b, es = a ++ SLost c :: b -> ~ In (SUp c) b.
Definition is_unbind (op : obj) : Prop := exists t, op = ONull KUnbind t.
(** Nothing is sent to the server of [c] once its client has gone. *)
Definition quiet_after (c : nat) (t : list sev) : Prop :=
  forall a b, t = a ++ SGone c :: b -> forall n op id, ~ In (SForward c n op id) b.
(** The same for the merging server *)
Definition backends_first (es : list mevent) : Prop :=
  forall a b, es = a ++ MLost :: b -> forall j, ~ In (MUp j) b.
Definition mquiet_after (t : list mev) : Prop :=
  forall a b, t = a ++ MGone :: b -> forall j n op id, ~ In (MForward j n op id) b.
