(* Character codecs used by the code: str.encode('utf-8'), bytes.decode('utf-8'),
   bytes.decode('cp1252'), str.encode('latin1').  They model CPython's codecs as
   documented (Unicode standard table 3-7, the cp1252 charmap); the call sites
   are asterisklint/file.py:96-101 and asterisklint/pattern.py:120,125,357. *)
From Verif Require Import Base.

Definition in_rng (lo hi x : N) : bool := (lo <=? x) && (x <=? hi).

(* One code point to UTF-8.  Surrogates and numbers above 0x10ffff raise. *)
Definition utf8_encode1 (c : N) : res bytes :=
  if c <? 0x80 then Ok [c]
  else if c <? 0x800 then Ok [0xc0 + c / 0x40; 0x80 + c mod 0x40]
  else if in_rng 0xd800 0xdfff c then Exn UnicodeEncodeError
  else if c <? 0x10000 then
    Ok [0xe0 + c / 0x1000; 0x80 + (c / 0x40) mod 0x40; 0x80 + c mod 0x40]
  else if c <? 0x110000 then
    Ok [0xf0 + c / 0x40000; 0x80 + (c / 0x1000) mod 0x40;
        0x80 + (c / 0x40) mod 0x40; 0x80 + c mod 0x40]
  else Exn UnicodeEncodeError.

(* bytes(s, 'utf-8'), s.encode('utf-8') *)
Fixpoint utf8_encode (s : str) : res bytes :=
  match s with
  | [] => Ok []
  | c :: s' => let! b := utf8_encode1 c in let! r := utf8_encode s' in Ok (b ++ r)
  end.

Definition cont (b : N) : bool := in_rng 0x80 0xbf b.

(* bytes.decode('utf-8') with errors='strict': well-formed sequences only. *)
Fixpoint utf8_decode (b : bytes) : res str :=
  match b with
  | [] => Ok []
  | b0 :: r0 =>
    if b0 <? 0x80 then let! s := utf8_decode r0 in Ok (b0 :: s)
    else if in_rng 0xc2 0xdf b0 then
      match r0 with
      | b1 :: r1 =>
        if cont b1 then
          let! s := utf8_decode r1 in Ok ((b0 - 0xc0) * 0x40 + (b1 - 0x80) :: s)
        else Exn UnicodeDecodeError
      | _ => Exn UnicodeDecodeError
      end
    else if in_rng 0xe0 0xef b0 then
      match r0 with
      | b1 :: b2 :: r2 =>
        if cont b1 && cont b2
           && (if b0 =? 0xe0 then 0xa0 <=? b1 else true)
           && (if b0 =? 0xed then b1 <=? 0x9f else true)
        then let! s := utf8_decode r2 in
             Ok ((b0 - 0xe0) * 0x1000 + (b1 - 0x80) * 0x40 + (b2 - 0x80) :: s)
        else Exn UnicodeDecodeError
      | _ => Exn UnicodeDecodeError
      end
    else if in_rng 0xf0 0xf4 b0 then
      match r0 with
      | b1 :: b2 :: b3 :: r3 =>
        if cont b1 && cont b2 && cont b3
           && (if b0 =? 0xf0 then 0x90 <=? b1 else true)
           && (if b0 =? 0xf4 then b1 <=? 0x8f else true)
        then let! s := utf8_decode r3 in
             Ok ((b0 - 0xf0) * 0x40000 + (b1 - 0x80) * 0x1000
                 + (b2 - 0x80) * 0x40 + (b3 - 0x80) :: s)
        else Exn UnicodeDecodeError
      | _ => Exn UnicodeDecodeError
      end
    else Exn UnicodeDecodeError
  end.

(* The cp1252 charmap for 0x80..0x9f; [None] is undefined (decode raises). *)
Definition cp1252_hi : list (option N) :=
  [Some 0x20ac; None; Some 0x201a; Some 0x0192; Some 0x201e; Some 0x2026;
   Some 0x2020; Some 0x2021; Some 0x02c6; Some 0x2030; Some 0x0160; Some 0x2039;
   Some 0x0152; None; Some 0x017d; None; None; Some 0x2018; Some 0x2019;
   Some 0x201c; Some 0x201d; Some 0x2022; Some 0x2013; Some 0x2014; Some 0x02dc;
   Some 0x2122; Some 0x0161; Some 0x203a; Some 0x0153; None; Some 0x017e;
   Some 0x0178].

Definition cp1252_char (b : N) : option N :=
  if in_rng 0x80 0x9f b then nth (N.to_nat (b - 0x80)) cp1252_hi None else Some b.

Fixpoint cp1252_decode (b : bytes) : res str :=
  match b with
  | [] => Ok []
  | x :: r =>
    match cp1252_char x with
    | Some c => let! s := cp1252_decode r in Ok (c :: s)
    | None => Exn UnicodeDecodeError
    end
  end.

(* s.encode('latin1') *)
Fixpoint latin1_encode (s : str) : res bytes :=
  match s with
  | [] => Ok []
  | c :: s' => if c <? 0x100 then let! r := latin1_encode s' in Ok (c :: r)
               else Exn UnicodeEncodeError
  end.
