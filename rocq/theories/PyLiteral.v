(** Literals of Python as far as the generator emits them: Python Language Reference 2.4.1 (string literals), 2.4.5 (integer literals) and
    2.4.6 (floating point literals).  This is part of the trusted semantics of Python, not a model of code in /repo.  Texts are lists of
    code points. *)
From Coq Require Import String Ascii.
From Verif Require Import Base.

Definition code (c : ascii) : Z := Z.of_nat (nat_of_ascii c).
Definition text (s : string) : list Z := map code (list_ascii_of_string s).

Definition within (lo hi c : Z) : bool := (lo <=? c) && (c <=? hi).
(** The value of a digit, letters of both cases *)
Definition digit (base c : Z) : option Z :=
  let d :=
    if within (code "0") (code "9") c then c - code "0"
    else if within (code "a") (code "z") c then c - code "a" + 10
    else if within (code "A") (code "Z") c then c - code "A" + 10
    else base in
  if d <? base then Some d else None.
Definition underscore : Z := code "_".

(** [([" _"] digit)*] with the value and the number of the digits so far *)
Fixpoint digits (base : Z) (acc n : Z) (t : list Z) : Z * Z * list Z :=
  match t with
  | [] => (acc, n, [])
  | c :: r =>
      match digit base c with
      | Some d => digits base (acc * base + d) (n + 1) r
      | None =>
          if c =? underscore
          then match r with
               | c' :: r' => match digit base c' with Some d => digits base (acc * base + d) (n + 1) r' | None => (acc, n, t) end
               | [] => (acc, n, t)
               end
          else (acc, n, t)
      end
  end.

(** ** 2.4.5 *)
Definition all_digits (base acc n : Z) (t : list Z) : option Z :=
  match digits base acc n t with (v, k, []) => if k =? 0 then None else Some v | _ => None end.
Definition zeros (t : list Z) : bool := forallb (fun c => (c =? code "0") || (c =? underscore)) t.
Definition py_integer (t : list Z) : option Z :=
  match t with
  | c :: r =>
      if c =? code "0"
      then match r with
           | p :: r' =>
               if (p =? code "b") || (p =? code "B") then all_digits 2 0 0 r'
               else if (p =? code "o") || (p =? code "O") then all_digits 8 0 0 r'
               else if (p =? code "x") || (p =? code "X") then all_digits 16 0 0 r'
               else if zeros r then all_digits 10 0 1 r else None
           | [] => Some 0
           end
      else match digit 10 c with Some d => all_digits 10 d 1 r | None => None end
  | [] => None
  end.

(** ** 2.4.6: [(m, e)] stands for the number m * 10^e, which is then rounded to the nearest double. *)
Definition digitpart (t : list Z) : option (Z * Z * list Z) :=
  match t with
  | c :: r => match digit 10 c with Some d => Some (digits 10 d 1 r) | None => None end
  | [] => None
  end.
Definition exponent (t : list Z) : option Z :=
  match t with
  | c :: r =>
      if (c =? code "e") || (c =? code "E")
      then let '(sign, r) := match r with
                             | s :: r' => if s =? code "+" then (1, r') else if s =? code "-" then (-1, r') else (1, r)
                             | [] => (1, r)
                             end in
           match digitpart r with Some (v, _, []) => Some (sign * v) | _ => None end
      else None
  | [] => None
  end.
Definition py_float (t : list Z) : option (Z * Z) :=
  match digitpart t with
  | Some (v, _, c :: r) =>
      if c =? code "."
      then let '(m, k, r') := match r with
                              | d :: _ => match digit 10 d with Some x => digits 10 (v * 10 + x) 1 (tl r) | None => (v, 0, r) end
                              | [] => (v, 0, r)
                              end in
           match r' with [] => Some (m, - k) | _ => match exponent r' with Some e => Some (m, e - k) | None => None end end
      else match exponent (c :: r) with Some e => Some (v, e) | None => None end
  | Some (_, _, []) => None
  | None =>
      match t with
      | c :: r =>
          if c =? code "."
          then match digitpart r with
               | Some (m, k, []) => Some (m, - k)
               | Some (m, k, r') => match exponent r' with Some e => Some (m, e - k) | None => None end
               | None => None
               end
          else None
      | [] => None
      end
  end.

(** ** 2.4.1: a string in double quotes.  Not covered: three quotes, prefixes, \N and \U (none is emitted; the reader then refuses). *)
Definition backslash : Z := 92.
Definition quote : Z := 34.
Definition simple_escape (c : Z) : option Z :=
  if c =? backslash then Some backslash
  else if c =? 39 then Some 39
  else if c =? quote then Some quote
  else if c =? code "a" then Some 7
  else if c =? code "b" then Some 8
  else if c =? code "f" then Some 12
  else if c =? code "n" then Some 10
  else if c =? code "r" then Some 13
  else if c =? code "t" then Some 9
  else if c =? code "v" then Some 11
  else None.
Definition put (c : Z) (r : option (list Z)) : option (list Z) := match r with Some s => Some (c :: s) | None => None end.
Definition octal (c : Z) : option Z := digit 8 c.
(** The characters after the opening quote up to the closing one, which must be the last.  An escape is up to three octal digits, \x with two
    or \u with four hexadecimal digits, or one of the letters above; a backslash before a newline vanishes with it and one before any other
    character stays.  Strings contain no newline and sources no null character. *)
Fixpoint py_chars (k : nat) (t : list Z) : option (list Z) :=
  match k with
  | O => None
  | S k =>
      match t with
      | [] => None
      | c :: r =>
          if c =? quote then match r with [] => Some [] | _ => None end
          else if (c =? 10) || (c =? 13) || (c =? 0) then None
          else if c =? backslash then
            match r with
            | [] => None
            | e :: r1 =>
                if e =? 0 then None
                else if (e =? 10) || (e =? 13) then py_chars k r1
                else match simple_escape e with
                | Some v => put v (py_chars k r1)
                | None =>
                    match octal e with
                    | Some a =>
                        match r1 with
                        | e2 :: r2 =>
                            match octal e2 with
                            | Some b =>
                                match r2 with
                                | e3 :: r3 =>
                                    match octal e3 with
                                    | Some d => put (a * 64 + b * 8 + d) (py_chars k r3)
                                    | None => put (a * 8 + b) (py_chars k r2)
                                    end
                                | [] => None
                                end
                            | None => put a (py_chars k r1)
                            end
                        | [] => None
                        end
                    | None =>
                        if e =? code "x" then
                          match r1 with
                          | h1 :: h2 :: r2 =>
                              match digit 16 h1, digit 16 h2 with Some a, Some b => put (a * 16 + b) (py_chars k r2) | _, _ => None end
                          | _ => None
                          end
                        else if e =? code "u" then
                          match r1 with
                          | h1 :: h2 :: h3 :: h4 :: r2 =>
                              match digit 16 h1, digit 16 h2, digit 16 h3, digit 16 h4 with
                              | Some a, Some b, Some c, Some d => put (((a * 16 + b) * 16 + c) * 16 + d) (py_chars k r2)
                              | _, _, _, _ => None
                              end
                          | _ => None
                          end
                        else if (e =? code "N") || (e =? code "U") then None
                        else put backslash (put e (py_chars k r1))
                    end
                end
            end
          else put c (py_chars k r)
      end
  end.
Definition py_string (t : list Z) : option (list Z) :=
  match t with q :: r => if q =? quote then py_chars (length t) r else None | [] => None end.
