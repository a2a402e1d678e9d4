(** UTF-8 as Python's str.encode("utf-8") and bytes.decode("utf-8") do it (strict), and
    ldaptor/_encoder.py. *)
From Verif Require Import Base.

(** One code point. Surrogates and numbers that are not code points raise UnicodeEncodeError. *)
Definition utf8_char (c : Z) : res bytes :=
  if c <? 0 then Err EUnicode
  else if c <? 0x80 then Ok [z2b c]
  else if c <? 0x800 then Ok [z2b (0xC0 + c / 64); z2b (0x80 + c mod 64)]
  else if (0xD800 <=? c) && (c <=? 0xDFFF) then Err EUnicode
  else if c <? 0x10000 then Ok [z2b (0xE0 + c / 4096); z2b (0x80 + c / 64 mod 64); z2b (0x80 + c mod 64)]
  else if c <? 0x110000 then
    Ok [z2b (0xF0 + c / 262144); z2b (0x80 + c / 4096 mod 64); z2b (0x80 + c / 64 mod 64); z2b (0x80 + c mod 64)]
  else Err EUnicode.

(** s.encode("utf-8") *)
Fixpoint utf8_encode (s : str) : res bytes :=
  match s with
  | [] => Ok []
  | c :: r => do b <- utf8_char c; do t <- utf8_encode r; Ok (b ++ t)
  end.

(** A continuation octet. *)
Definition cont (b : byte) : bool := (0x80 <=? b2z b) && (b2z b <=? 0xBF).

(** b.decode("utf-8"): refuses stray continuation octets, overlong forms, surrogates and numbers
    above 0x10FFFF. *)
Fixpoint utf8_decode (s : bytes) : res str :=
  match s with
  | [] => Ok []
  | b0 :: r =>
      let h := b2z b0 in
      if h <? 0x80 then do t <- utf8_decode r; Ok (h :: t)
      else if (0xC2 <=? h) && (h <=? 0xDF) then
        match r with
        | b1 :: r1 =>
            if cont b1 then
              do t <- utf8_decode r1; Ok ((h - 0xC0) * 64 + (b2z b1 - 0x80) :: t)
            else Err EUnicode
        | _ => Err EUnicode
        end
      else if (0xE0 <=? h) && (h <=? 0xEF) then
        match r with
        | b1 :: b2 :: r2 =>
            let c := (h - 0xE0) * 4096 + (b2z b1 - 0x80) * 64 + (b2z b2 - 0x80) in
            if cont b1 && cont b2 && (0x800 <=? c) && negb ((0xD800 <=? c) && (c <=? 0xDFFF)) then
              do t <- utf8_decode r2; Ok (c :: t)
            else Err EUnicode
        | _ => Err EUnicode
        end
      else if (0xF0 <=? h) && (h <=? 0xF4) then
        match r with
        | b1 :: b2 :: b3 :: r3 =>
            let c := (h - 0xF0) * 262144 + (b2z b1 - 0x80) * 4096 + (b2z b2 - 0x80) * 64 + (b2z b3 - 0x80) in
            if cont b1 && cont b2 && cont b3 && (0x10000 <=? c) && (c <? 0x110000) then
              do t <- utf8_decode r3; Ok (c :: t)
            else Err EUnicode
        | _ => Err EUnicode
        end
      else Err EUnicode
  end.

(** A value that is either text or bytes. *)
Inductive pyval := PStr (s : str) | PBytes (b : bytes).

Definition pyval_eqb (a b : pyval) : bool :=
  match a, b with
  | PStr s, PStr t => str_eqb s t
  | PBytes s, PBytes t => bytes_eqb s t
  | _, _ => false
  end.

(** _encoder.py 8-22: to_bytes(value) for text and bytes *)
Definition to_bytes (v : pyval) : res bytes :=
  match v with PStr s => utf8_encode s | PBytes b => Ok b end.

(** _encoder.py 25-34: to_unicode(value) for text and bytes *)
Definition to_unicode (v : pyval) : res str :=
  match v with PStr s => Ok s | PBytes b => utf8_decode b end.

(** _encoder.py 37-47: get_strings(value) for text and bytes *)
Definition get_strings (v : pyval) : res (list pyval) :=
  match v with
  | PStr s => do b <- utf8_encode s; Ok [PStr s; PBytes b]
  | PBytes b => do s <- utf8_decode b; Ok [PBytes b; PStr s]
  end.
