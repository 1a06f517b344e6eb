(** Model of Python's strict "utf-8" codec as used by str.encode("utf-8")
    (rt/bitwriter.py:255, rt/bitsizeof.py:141, rt/builtin.py:48) and
    bytearray.decode("utf-8") (rt/bitreader.py:537).  CPython's C codec itself
    is not in the repository; this is RFC 3629 UTF-8.  A [str] is a list of code
    points in [0, 0x10FFFF], surrogates included (Python allows them in str but
    refuses to encode them). *)
From Verif Require Import Base.

Definition is_surrogate (c : Z) : bool := (0xD800 <=? c) && (c <=? 0xDFFF).

Definition utf8_encode_char (c : Z) : res (list Z) :=
  if c <? 0 then Raise ValueErr
  else if c <? 0x80 then Ok [c]
  else if c <? 0x800 then Ok [0xC0 + c / 64; 0x80 + c mod 64]
  else if is_surrogate c then Raise UnicodeErr
  else if c <? 0x10000 then Ok [0xE0 + c / 4096; 0x80 + (c / 64) mod 64; 0x80 + c mod 64]
  else if c <? 0x110000 then
    Ok [0xF0 + c / 262144; 0x80 + (c / 4096) mod 64; 0x80 + (c / 64) mod 64; 0x80 + c mod 64]
  else Raise ValueErr.

Fixpoint utf8_encode (s : list Z) : res (list Z) :=
  match s with
  | [] => Ok []
  | c :: s' =>
      b <-? utf8_encode_char c ;;
      bs <-? utf8_encode s' ;;
      Ok (b ++ bs)
  end.

Definition is_cont (b : Z) : bool := (0x80 <=? b) && (b <? 0xC0).

(** Decodes one code point from the front; returns it with the rest. *)
Definition utf8_decode_char (l : list Z) : res (Z * list Z) :=
  match l with
  | [] => Raise UnicodeErr
  | b0 :: l1 =>
      if b0 <? 0x80 then Ok (b0, l1)
      else if b0 <? 0xC2 then Raise UnicodeErr
      else if b0 <? 0xE0 then
        match l1 with
        | b1 :: l2 =>
            if is_cont b1 then Ok ((b0 - 0xC0) * 64 + (b1 - 0x80), l2) else Raise UnicodeErr
        | _ => Raise UnicodeErr
        end
      else if b0 <? 0xF0 then
        match l1 with
        | b1 :: b2 :: l3 =>
            if is_cont b1 && is_cont b2 then
              let c := (b0 - 0xE0) * 4096 + (b1 - 0x80) * 64 + (b2 - 0x80) in
              if (c <? 0x800) || is_surrogate c then Raise UnicodeErr else Ok (c, l3)
            else Raise UnicodeErr
        | _ => Raise UnicodeErr
        end
      else if b0 <? 0xF5 then
        match l1 with
        | b1 :: b2 :: b3 :: l4 =>
            if is_cont b1 && is_cont b2 && is_cont b3 then
              let c := (b0 - 0xF0) * 262144 + (b1 - 0x80) * 4096 + (b2 - 0x80) * 64 + (b3 - 0x80) in
              if (c <? 0x10000) || (0x10FFFF <? c) then Raise UnicodeErr else Ok (c, l4)
            else Raise UnicodeErr
        | _ => Raise UnicodeErr
        end
      else Raise UnicodeErr
  end.

(** Each step consumes at least one byte, so the length of the input is enough
    fuel. *)
Fixpoint utf8_decode_fuel (fuel : nat) (l : list Z) : res (list Z) :=
  match l with
  | [] => Ok []
  | _ =>
      match fuel with
      | O => Raise UnicodeErr
      | S k =>
          p <-? utf8_decode_char l ;;
          s <-? utf8_decode_fuel k (snd p) ;;
          Ok (fst p :: s)
      end
  end.
Definition utf8_decode (l : list Z) : res (list Z) := utf8_decode_fuel (length l) l.
