(** What the tools of ToolsModel are to give. *)
From Verif Require Import Base Utf8Model DnModel DnSpec EntryModel UtilModel UtilSpec ToolsModel.

(** ** Passwords *)
(** The lines of a text that are not empty: [ls] with line ends before, between (at least one) and
    behind them. *)
Definition line_ends (s : str) : Prop := Forall (fun c => c = 10) s.
Inductive text_lines : str -> list str -> Prop :=
| no_lines : forall s, line_ends s -> text_lines s []
| last_line : forall s l t, line_ends s -> l <> [] -> ~ In 10 l -> line_ends t -> text_lines (s ++ l ++ t) [l]
| more_lines : forall s l t ls, line_ends s -> l <> [] -> ~ In 10 l -> ls <> [] -> text_lines t ls -> text_lines (s ++ l ++ 10 :: t) (l :: ls).
(** What came on the two outputs, in all, when it came as text. *)
Inductive on_outputs : list pwevent -> str -> str -> Prop :=
| outputs_end : on_outputs [] [] []
| outputs_out : forall s evs o e, on_outputs evs o e -> on_outputs (GOut (PStr s) :: evs) (s ++ o) e
| outputs_err : forall s evs o e, on_outputs evs o e -> on_outputs (GErr (PStr s) :: evs) o (s ++ e).

(** ** The line of an account *)
(** An entry with text only *)
Definition text_entry (lower : str -> str) (e : entry) : Prop :=
  (forall a, In a (e_attrs e) -> (exists k b, s_key a = PStr k /\ utf8_encode k = Ok b) /\ s_vals a <> [] /\
     forall v, In v (s_vals a) -> exists s b, v = PStr s /\ utf8_encode s = Ok b) /\
  NoDup (map (fun a => lowv lower (s_key a)) (e_attrs e)).
(** It has an attribute spelt so; [v] is the least of its values. *)
Definition has_attr (e : entry) (k : str) : Prop := exists a, In a (e_attrs e) /\ s_key a = PStr k.
Definition least (e : entry) (k v : str) : Prop :=
  exists a, In a (e_attrs e) /\ s_key a = PStr k /\ In (PStr v) (s_vals a) /\ forall w, In (PStr w) (s_vals a) -> str_leb v w = true.
(** The same, or [d] if there is no such attribute *)
Definition least_or (e : entry) (k : str) (d : str -> Prop) (v : str) : Prop := least e k v \/ (~ has_attr e k /\ d v).
(** Fields with colons between them *)
Fixpoint with_colons (l : list str) : str :=
  match l with [] => [] | [f] => f | f :: r => f ++ S_ ":" ++ with_colons r end.
Definition plain_field (s : str) : Prop := ~ In 58 s /\ ~ In 10 s.

(** ** Addresses *)
Record ip4 := mkIp4 { ip_a : Z; ip_b : Z; ip_c : Z; ip_d : Z }.
Definition ip_ok (i : ip4) : Prop := 0 <= ip_a i <= 255 /\ 0 <= ip_b i <= 255 /\ 0 <= ip_c i <= 255 /\ 0 <= ip_d i <= 255.
Definition ip_text (i : ip4) : str := dec (ip_a i) ++ S_ "." ++ dec (ip_b i) ++ S_ "." ++ dec (ip_c i) ++ S_ "." ++ dec (ip_d i).
Definition ip_num (i : ip4) : Z := ip_a i * 2 ^ 24 + ip_b i * 2 ^ 16 + ip_c i * 2 ^ 8 + ip_d i.
(** A netmask of [n] bits, as number of bits or as an address *)
Definition mask_text (n : Z) (t : str) : Prop :=
  t = dec n \/ exists m, ip_ok m /\ ip_num m = mask n /\ t = ip_text m.
