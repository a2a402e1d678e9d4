(** Model of ldaptor/_scripts/getfreenumber.py with the searches of ldaptor/numberalloc.py one by one: the
    directory may change between two of them.

    Simplifications:
    - the connection and the results of the searches are inputs, as decoded by the layers below (SyntaxModel);
      an input that the tool does not wait for is ignored;
    - of a result only the number of entries is kept, which is all that guess() returns (52). *)
From Verif Require Import Base Utf8Model UtilModel.

(** What can be seen from outside *)
Inductive gevent :=
| GNoBase                                  (** getfreenumber.py 20: no base DN; sys.exit(1) follows *)
| GConnect                                 (** 24 *)
| GSearch (attr value : str) (limit : Z)   (** numberalloc.py 45-51 *)
| GReply (r : res nat)                     (** the search ends: so many entries, or a failure *)
| GPrint (text : str)                      (** getfreenumber.py 31 *)
| GFail (x : exn)                          (** 10-11 *)
| GStop.                                   (** 33 *)
Inductive gin := KConnected (r : res unit) | KReply (r : res nat).
(** The state of the chain of Deferreds; [mn], [mx] are the attributes of the freeNumberGuesser *)
Inductive gstate := GConnecting | GGuessing (mn : Z) (mx : option Z) (guess : Z) | GOver.
Record guesser := mkGuesser { g_state : gstate; g_exit : bool; g_trace : list gevent }.

(** numberalloc.py 45-51: the search for a number, with numberType "uidNumber" (getfreenumber.py 28) *)
Definition search_for (n : Z) : gevent := GSearch (S_ "uidNumber") (dec n) 1.
(** numberalloc.py 20-37: _nextGuess: the number, or the next guess *)
Definition next_step (found : nat) (mn : Z) (mx : option Z) (last : Z) : Z + (Z * option Z * Z) :=
  let mn' := match found with O => mn | _ => last end in
  let mx' := match found with O => Some last | _ => mx end in
  let guess := ((match mx' with Some m => m | None => mn' + 1000 end) + mn') / 2 in
  match mx' with
  | Some m => if (m =? mn') || (m =? mn' + 1) then inl m else inr (mn', mx', guess)
  | None => inr (mn', mx', guess)
  end.
(** getfreenumber.py 16-24: main up to reactor.run(); [base]: there is a base DN *)
Definition free_start (base : bool) : guesser :=
  if base then mkGuesser GConnecting false [GConnect] else mkGuesser GOver true [GNoBase].
(** 9-13, 32-33: error() and the stop *)
Definition free_fail (w : guesser) (es : list gevent) (x : exn) : guesser := mkGuesser GOver true (g_trace w ++ es ++ [GFail x; GStop]).
(** 26-33: the callbacks, with min=1000 *)
Definition free_step (w : guesser) (i : gin) : guesser :=
  match g_state w, i with
  | GConnecting, KConnected (Ok _) => mkGuesser (GGuessing 1000 None 1000) (g_exit w) (g_trace w ++ [search_for 1000])
  | GConnecting, KConnected (Err x) => free_fail w [] x
  | GGuessing mn mx guess, KReply (Ok n) =>
      match next_step n mn mx guess with
      | inl m => mkGuesser GOver (g_exit w) (g_trace w ++ [GReply (Ok n); GPrint (dec m ++ [10]); GStop])
      | inr (mn', mx', g) => mkGuesser (GGuessing mn' mx' g) (g_exit w) (g_trace w ++ [GReply (Ok n); search_for g])
      end
  | GGuessing _ _ _, KReply (Err x) => free_fail w [GReply (Err x)] x
  | _, _ => w
  end.
Definition free_run (base : bool) (l : list gin) : guesser := fold_left free_step l (free_start base).
(** 36: sys.exit(exitStatus) *)
Definition free_exit (w : guesser) : Z := if g_exit w then 1 else 0.
