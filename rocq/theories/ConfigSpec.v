(** What options and configuration files say about the server for a DN. *)
From Verif Require Import Base Utf8Model DnModel DnSpec FilterTextModel IdentityModel UtilModel ConfigModel.

Definition no_colon (s : str) : Prop := ~ In 58 s.
(** BASEDN:HOST or BASEDN:HOST:PORT; the port is all the rest. [means] says what a text means as DN. *)
Inductive option_says (means : str -> dn -> Prop) : str -> dn * location -> Prop :=
| says_host : forall base host d, no_colon base -> no_colon host -> means base d ->
    option_says means (base ++ S_ ":" ++ host) (d, (Some host, None))
| says_port : forall base host port d, no_colon base -> no_colon host -> means base d ->
    option_says means (base ++ S_ ":" ++ host ++ S_ ":" ++ port) (d, (Some host, Some port)).

(** The last of the settings that are for [d]. *)
Fixpoint last_for {V} (same : dn -> bool) (l : list (dn * V)) : option V :=
  match l with
  | [] => None
  | (k, v) :: r => match last_for same r with Some w => Some w | None => if same k then Some v else None end
  end.
(** The dict takes two DNs for one when they are equal and their texts have the same hash. *)
Definition one_key (lower : str -> str) (hs : str -> Z) (d k : dn) : bool :=
  (hs (dn_text d) =? hs (dn_text k)) && dn_eqb lower d k.

(** What an option of a file gives; an empty one is as good as none. *)
Definition given (r : option (res str)) (x : option str) : Prop :=
  match r with None => x = None | Some (Ok []) => x = None | Some (Ok v) => x = Some v | Some (Err _) => False end.
(** [t] without the white space at both ends is [u]. *)
Definition trimmed (isspace : Z -> bool) (t u : str) : Prop :=
  exists a b, t = a ++ u ++ b /\ Forall (fun c => isspace c = true) a /\ Forall (fun c => isspace c = true) b /\
    (forall c v, u = c :: v -> isspace c = false) /\ (forall c v, u = v ++ [c] -> isspace c = false).
(** What the sections of a file say, in order. [read] is what reading an option gives. *)
Inductive file_says (lower : str -> str) (isspace : Z -> bool) (read : list (str * str) -> str -> option (res str))
    (means : str -> dn -> Prop) : list (str * list (str * str)) -> list (dn * location) -> Prop :=
| file_end : file_says lower isspace read means [] []
| file_other : forall name sec r l, (forall t, lower name <> S_ "service-location " ++ t) ->
    file_says lower isspace read means r l -> file_says lower isspace read means ((name, sec) :: r) l
| file_here : forall name sec r l t base d host port, lower name = S_ "service-location " ++ t ->
    trimmed isspace (skipn 17 name) base -> means base d ->
    given (read sec (S_ "host")) host -> given (read sec (S_ "port")) port ->
    file_says lower isspace read means r l ->
    file_says lower isspace read means ((name, sec) :: r) ((d, (host, port)) :: l).

(** The file has the option [k] in the section [name]; the first of the name counts, in the section and
    then in DEFAULT. *)
Definition option_in (file : list (str * list (str * str))) (name k v : str) : Prop :=
  exists sec a b, In (name, sec) file /\ sec = a ++ (k, v) :: b /\ ~ In k (map fst a).
Definition no_option (file : list (str * list (str * str))) (name k : str) : Prop :=
  forall sec, In (name, sec) file -> ~ In k (map fst sec).
(** A text as it has to be written in a file, where "%" is special *)
Definition doubled (t : str) : str := flat_map (fun c => if c =? 37 then S_ "%%" else [c]) t.
