(** Model of ldaptor/protocols/pureber.py: integers, lengths, the decode loop.
    The decode loop is generic in the decoder-context type and in the classes'
    fromBER functions; LdapModel.v instantiates them. *)
From Verif Require Import Base.

(** pureber.py 31-41: the masks of the identifier octet. *)
Definition CLASS_MASK := 0xC0.
Definition CLASS_APPLICATION := 0x40.
Definition CLASS_CONTEXT := 0x80.
Definition STRUCTURED := 0x20.
Definition TAG_MASK := 0x1F.

(** pureber.py 151-154: need(buf, n). *)
Definition need (buf : bytes) (n : Z) : res unit :=
  let d := n - zlen buf in
  if d >? 0 then Err EInsufficient else Ok tt.

(** pureber.py 88-94: the loop of int2ber. The while condition is the Python one.
    [fuel] bounds the number of iterations; int2ber gives enough (proved). *)
Fixpoint int2ber_loop (fuel : nat) (signed : bool) (i : Z) (encoded : bytes) : res bytes :=
  if (signed && ((i >? 127) || (i <? -128))) || (negb signed && (i >? 255)) then
    match fuel with
    | O => Err EFuel
    | S f => int2ber_loop f signed (Z.shiftr i 8) (z2b (i mod 256) :: encoded)
    end
  else Ok (z2b (i mod 256) :: encoded).

(** pureber.py 88-94: int2ber(i, signed). *)
Definition int2ber (signed : bool) (i : Z) : res bytes :=
  int2ber_loop (Z.to_nat (Z.log2 (Z.abs i)) + 1) signed i [].

(** pureber.py 76-85: int2berlen(i). *)
Definition int2berlen (i : Z) : res bytes :=
  if i <? 0 then Err EAssert else
  do e <- int2ber false i;
  if i <=? 127 then Ok e
  else
    let l := zlen e in
    if negb (l >? 0) then Err EAssert
    else if negb (l <=? 127) then Err EAssert
    else Ok (z2b (Z.lor 0x80 l) :: e).

(** pureber.py 97-104: ber2int(e, signed). *)
Definition ber2int (signed : bool) (e : bytes) : res Z :=
  do _ <- need e 1;
  match e with
  | [] => Err EInsufficient
  | b :: r =>
      let v := b2z b in
      let v := if negb (Z.land v 0x80 =? 0) && signed then v - 256 else v in
      Ok (fold_left (fun v b => Z.lor (Z.shiftl v 8) (b2z b)) r v)
  end.

(** pureber.py 62-73: berDecodeLength(m, offset), returning (l, ll). *)
Definition berDecodeLength (m : bytes) (offset : Z) : res (Z * Z) :=
  do l <- ber2int true (ztake 1 (zdrop offset m));
  if negb (Z.land l 0x80 =? 0) then
    let ll := 1 + Z.land l 0x7F in
    do _ <- need m (offset + ll);
    do l <- ber2int false (ztake (ll - 1) (zdrop (offset + 1) m));
    Ok (l, ll)
  else Ok (l, 1).

(** The identifier, length and content of the first element of [m]:
    the part of berDecodeObject (pureber.py 368-373) before the class lookup.
    Returns (i, content, total number of bytes). *)
Definition berHeader (m : bytes) : res (Z * bytes * Z) :=
  do _ <- need m 2;
  do i0 <- ber2int false (ztake 1 m);
  let i := Z.land i0 (Z.lor CLASS_MASK TAG_MASK) in
  do (length, lenlen) <- berDecodeLength m 1;
  do _ <- need m (1 + lenlen + length);
  let m2 := ztake length (zdrop (1 + lenlen) m) in
  Ok (i, m2, 1 + lenlen + length).

Section Decode.
  (** [ctx]: decoder contexts; [obj]: decoded objects; [lookup] and [inh]: the methods
      lookup_id and inherit; [fromBER]: the class method of the class found. *)
  Context {ctx cls obj : Type}.
  Variable lookup : ctx -> Z -> option cls.
  Variable inh : ctx -> ctx.
  Variable fromBER : cls -> Z -> bytes -> ctx -> res obj.

  (** pureber.py 363-384: berDecodeObject(context, m). The "while m" loop always
      returns in its first iteration, so it is an "if". *)
  Definition berDecodeObject (c : ctx) (m : bytes) : res (option obj * Z) :=
    match m with
    | [] => Ok (None, 0)
    | _ :: _ =>
        do (i, m2, used) <- berHeader m;
        match lookup c i with
        | Some k => do r <- fromBER k i m2 (inh c); Ok (Some r, used)
        | None => Ok (None, used)
        end
    end.

  (** pureber.py 387-403: the loop of berDecodeMultiple. *)
  Fixpoint berDecodeMultiple_loop (fuel : nat) (c : ctx) (content : bytes) : res (list obj) :=
    match content with
    | [] => Ok []
    | _ :: _ =>
        match fuel with
        | O => Err EFuel
        | S f =>
            do (n, used) <- berDecodeObject c content;
            if negb (used <=? zlen content) then Err EAssert else
            do l <- berDecodeMultiple_loop f c (zdrop used content);
            Ok (match n with Some o => o :: l | None => l end)
        end
    end.

  (** pureber.py 387-403: berDecodeMultiple(content, berdecoder). *)
  Definition berDecodeMultiple (content : bytes) (c : ctx) : res (list obj) :=
    berDecodeMultiple_loop (length content) c content.
End Decode.

(** The octets of one element: identifier octet, length, content, as every toWire
    method of pureber.py builds them (178, 208, 299; pureldap.py 562). *)
Definition tlv (ident : Z) (content : bytes) : res bytes :=
  do l <- int2berlen (zlen content);
  Ok (z2b ident :: l ++ content).
