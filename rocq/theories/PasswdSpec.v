(** Specification for the tool that sets passwords: what may happen for one DN, and for all of them. *)
From Verif Require Import Base Utf8Model DnModel UtilModel ToolsModel PasswdModel.

Section Spec.
  Variable io : Z -> Z -> res Z.
  Variable binddn : str.
  Variable bind_password : option str.
  Variable dns : list str.
  Variable generated : bool.

  (** The DN that an event is about, by its number *)
  Definition about (e : sevent) : option nat :=
    match e with
    | SAsk k _ | SStart k | SGot k _ | SSet k _ _ | SResult k _ | SPrint k _ _ | SPwgen k _ => Some k
    | SFail o _ => o
    | _ => None
    end.
  Definition about_k (k : nat) (e : sevent) : bool := match about e with Some j => Nat.eqb j k | None => false end.
  Definition view (k : nat) (tr : list sevent) : list sevent := filter (about_k k) tr.
  (** The first thing that happens for a DN *)
  Definition asked (k : nat) (dn : str) : sevent := if generated then SStart k else SAsk k dn.
  (** What may have happened for a DN so far, and whether all has: it is asked for a password, it gets one
      or none, that one is set for this DN if the DN can be read, and the result is reported. A password is
      shown only if it was generated, and only when it has been set. *)
  Inductive history (k : nat) (dn : str) : list sevent -> bool -> Prop :=
  | h_asked : history k dn [asked k dn] false
  | h_none : forall x, x <> EPwgen -> history k dn [asked k dn; SGot k (Err x)] true
  | h_pwgen : history k dn [asked k dn; SGot k (Err EPwgen); SPwgen k EPwgen] true
  | h_many : forall l, length l <> 1%nat -> history k dn [asked k dn; SGot k (Ok l)] true
  | h_no_dn : forall pw x, parse_dn io dn = Err x -> history k dn [asked k dn; SGot k (Ok [pw])] true
  | h_set : forall pw d, parse_dn io dn = Ok d -> history k dn [asked k dn; SGot k (Ok [pw]); SSet k d pw] false
  | h_done : forall pw d u, parse_dn io dn = Ok d ->
      history k dn ([asked k dn; SGot k (Ok [pw]); SSet k d pw; SResult k (Ok u)] ++ (if generated then [SPrint k dn pw] else [])) true
  | h_failed : forall pw d x, parse_dn io dn = Ok d -> history k dn [asked k dn; SGot k (Ok [pw]); SSet k d pw; SResult k (Err x); SFail (Some k) x] true.
  (** How a run begins *)
  Inductive opening : list sevent -> Prop :=
  | o_anonymous : binddn = [] -> opening [SBind None]
  | o_given : forall pw, binddn <> [] -> bind_password = Some pw -> opening [SBind (Some (binddn, pw))]
  | o_typed : forall pw, binddn <> [] -> bind_password = None -> opening [SAskBind binddn; SBind (Some (binddn, pw))].
  (** All DNs have been asked for, and all is done for each. *)
  Definition all_done (mid : list sevent) : Prop := forall k dn, nth_error dns k = Some dn -> history k dn (view k mid) true.
  (** What can be seen of a run, at any time *)
  Inductive shape : list sevent -> Prop :=
  | s_start : shape []
  | s_raised : forall x, binddn <> [] -> bind_password = None -> shape [SAskBind binddn; SRaised x]
  | s_binding : forall o, opening o -> shape o
  | s_refused : forall o x, opening o -> shape (o ++ [SBound (Err x); SFail None x; SClose; SStop])
  | s_running : forall o mid, opening o -> (forall e, In e mid -> exists k, about e = Some k /\ (k < length dns)%nat) ->
      (forall k dn, nth_error dns k = Some dn -> exists b, history k dn (view k mid) b) -> ~ all_done mid ->
      shape (o ++ SBound (Ok tt) :: mid)
  | s_all_done : forall o mid, opening o -> (forall e, In e mid -> exists k, about e = Some k /\ (k < length dns)%nat) -> all_done mid ->
      shape (o ++ SBound (Ok tt) :: mid ++ [SClose; SStop])
  (** getpass, or starting the generator, has raised for the DN [j]: those behind it are never asked for, and nothing ends the run. *)
  | s_stuck : forall o j x m1 m2, opening o -> (j < length dns)%nat ->
      (forall e, In e (m1 ++ m2) -> exists k, about e = Some k /\ (k <= j)%nat) ->
      (forall k dn, nth_error dns k = Some dn -> (k < j)%nat -> exists b, history k dn (view k (m1 ++ m2)) b) ->
      (forall dn, nth_error dns j = Some dn -> view j (m1 ++ m2) = [asked j dn]) ->
      shape (o ++ SBound (Ok tt) :: m1 ++ SRaised x :: m2).
  (** The input that an event comes from: the password of a DN is the one typed or generated for that DN, and
      the result of its change is the one of that change. *)
  Definition came_from (i : pwin) (e : sevent) : Prop :=
    match e, i with
    | SBind (Some (_, pw)), IMade t => bind_password = Some pw \/ t = Ok pw
    | SBind None, IMade _ | SAskBind _, IMade _ => True
    | SBind _, _ | SAskBind _, _ => False
    | SBound r, IBound r' _ _ => r = r'
    | SBound _, _ => False
    | SAsk _ _, IBound (Ok _) _ _ | SStart _, IBound (Ok _) _ _ => True
    | SAsk _ _, _ | SStart _, _ => False
    | SGot k r, IPassword k' r' _ => generated = true /\ k = k' /\ r = r'
    | SGot k r, IBound (Ok _) typed _ => generated = false /\ exists pw, typed k = Ok pw /\ r = Ok [pw]
    | SGot _ _, _ => False
    | SResult k r, IResult k' r' => k = k' /\ r = r'
    | SResult k r, IPassword k' _ now => k = k' /\ now k = Some r
    | SResult k r, IBound (Ok _) _ now => now k = Some r
    | SResult _ _, _ => False
    | SRaised x, IMade t => t = Err x
    | SRaised x, IBound (Ok _) typed _ => exists k, typed k = Err x
    | SRaised _, _ => False
    | _, _ => True
    end.
End Spec.
