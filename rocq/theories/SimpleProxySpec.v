(** Specification side of the simple proxy: predicates on what is observed, in order. *)
From Verif Require Import Base BerModel LdapModel ServerModel ClientModel ProxyModel ProxySpec SimpleProxyModel.

(** What the client of connection [c] has asked, what has been passed on to its server *)
Definition asked (c : nat) (t : list sev) : list (pv * obj) :=
  flat_map (fun e => match e with SGot d id op => if Nat.eqb d c then [(id, op)] else [] | _ => [] end) t.
Definition passed (c : nat) (t : list sev) : list (pv * obj) :=
  flat_map (fun e => match e with SForward d _ op id => if Nat.eqb d c then [(id, op)] else [] | _ => [] end) t.
(** What waits for connection [c] *)
Definition pending (c : nat) (l : list (nat * (pv * obj))) : list (pv * obj) :=
  flat_map (fun e => if Nat.eqb (fst e) c then [snd e] else []) l.
(** The responses to message [b] of connection [c], and what its client was sent for them *)
Definition answered (c : nat) (b : Z) (t : list sev) : list obj :=
  flat_map (fun e => match e with SArrived d b' v => if Nat.eqb d c && (b' =? b) then [v] else [] | _ => [] end) t.
Definition told (c : nat) (b : Z) (t : list sev) : list (pv * obj) :=
  flat_map (fun e => match e with SReply d id v b' => if Nat.eqb d c && (b' =? b) then [(id, v)] else [] | _ => [] end) t.
(** Neither peer of connection [c] leaves *)
Definition stays (c : nat) (e : sevent) : Prop :=
  match e with SServerLost d | SLost d => d <> c | _ => True end.
(** Nothing waits for [c] when another connection to a server comes up. *)
Definition undisturbed (c : nat) (s : sst) (es : list sevent) : Prop :=
  forall es1 d es2, es = es1 ++ SUp d :: es2 -> d <> c -> pending c (s_waiting (srun s es1)) = [].
