(** Model of versions and the compatibility check: core/src/zserio/tools/ZserioVersion.java, ExtensionVersionMatcher.java, core/src/zserio/ast/CompatibilityVersion.java,
    core/src/zserio/extension/common/CompatibilityChecker.java.

    Simplifications.
    - Texts have no line terminators and no digits but 0 to 9 (Integer.parseInt would accept others after -pre).
    - A package is its compatibility version and the fields of its structures, choices and unions, templates included (traverseTemplateInstantiations is false, so the walker takes
      the templates themselves); a field is what the check asks for.
    - Exceptions are [None] and [false]; warnings are the numbers of the packages they are about. *)
From Coq Require Import String Ascii.
From Verif Require Import Base PyLiteral.

Record version := { major : Z; minor : Z; revision : Z; pre : option Z }.

(** int subtraction *)
Definition int_minus (a b : Z) : Z := (a - b + 2147483648) mod 4294967296 - 2147483648.
(** ZserioVersion.java:145-152; Integer.compareTo *)
Definition compare_pre (a b : option Z) : Z :=
  match a, b with
  | None, None => 0
  | None, Some _ => 1
  | Some _, None => -1
  | Some x, Some y => if x <? y then -1 else if x =? y then 0 else 1
  end.
(** ZserioVersion.java:48-58 *)
Definition compare_to (v w : version) : Z :=
  if negb (major v =? major w) then int_minus (major v) (major w)
  else if negb (minor v =? minor w) then int_minus (minor v) (minor w)
  else if negb (revision v =? revision w) then int_minus (revision v) (revision w)
  else compare_pre (pre v) (pre w).

(** Integer.parseInt of digits *)
Definition digit_value (c : Z) : option Z := if (48 <=? c) && (c <=? 57) then Some (c - 48) else None.
Fixpoint span_digits (t : list Z) : list Z * list Z :=
  match t with
  | [] => ([], [])
  | c :: r => match digit_value c with Some d => let (ds, rest) := span_digits r in (d :: ds, rest) | None => ([], t) end
  end.
Definition to_int (negative : bool) (ds : list Z) : option Z :=
  match ds with
  | [] => None
  | _ => let v := fold_left (fun a d => a * 10 + d) ds 0 in
         let v := if negative then - v else v in
         if (-2147483648 <=? v) && (v <=? 2147483647) then Some v else None
  end.
(** Integer.parseInt *)
Definition parse_int (t : list Z) : option Z :=
  let signed negative t := match span_digits t with (ds, []) => to_int negative ds | _ => None end in
  match t with
  | c :: r => if c =? code "-" then signed true r else if c =? code "+" then signed false r else signed false t
  | [] => None
  end.
(** parseVersion: ZserioVersion.java:121-139, the pattern is three numbers with points between them and, possibly, -pre and anything *)
Definition parse_version (t : list Z) : option version :=
  match span_digits t with
  | (d1, p :: r) =>
      if p =? code "." then
        match span_digits r with
        | (d2, q :: s) =>
            if q =? code "." then
              match span_digits s with
              | (d3, rest) =>
                  match to_int false d1, to_int false d2, to_int false d3 with
                  | Some a, Some b, Some c =>
                      match rest with
                      | [] => Some {| major := a; minor := b; revision := c; pre := None |}
                      | h :: x :: y :: z :: r =>
                          if (h =? code "-") && (x =? code "p") && (y =? code "r") && (z =? code "e") then
                            match parse_int r with Some n => Some {| major := a; minor := b; revision := c; pre := Some n |} | None => None end
                          else None
                      | _ => None
                      end
                  | _, _, _ => None
                  end
              end
            else None
        | _ => None
        end
      else None
  | _ => None
  end.

(** ZserioVersion.java:155 and CompatibilityVersion.java:64-66 *)
Definition version_string : list Z := text "2.18.2".
Definition minimum_supported : version := {| major := 2; minor := 4; revision := 0; pre := None |}.
(** CompatibilityVersion.java:18-45, after the quotes have been stripped *)
Definition compatibility_version (t : list Z) : option version :=
  match parse_version t, parse_version version_string with
  | Some v, Some current => if 0 <? compare_to v current then None else if compare_to v minimum_supported <? 0 then None else Some v
  | _, _ => None
  end.

(** CompatibilityChecker.java:106 *)
Definition packed_array_change : version := {| major := 2; minor := 5; revision := 0; pre := None |}.
Record field := { f_array : bool; f_packed : bool }.
Record package := { p_version : option version; p_compounds : list (list field) }.
(** CompatibilityChecker.java:77-104 *)
Definition check_compound (required : option version) (fields : list field) : bool :=
  match required with
  | None => true
  | Some v => if compare_to v packed_array_change <? 0 then forallb (fun f => negb (f_array f && f_packed f)) fields else true
  end.
(** CompatibilityChecker.java:26-57, over the packages of the schema, of which the first is the root package *)
Definition root_version (packages : list package) : option version := match packages with [] => None | p :: _ => p_version p end.
Definition check_packages (packages : list package) : bool := forallb (fun p => forallb (check_compound (root_version packages)) (p_compounds p)) packages.
Definition warns (root : option version) (p : package) : bool :=
  match p_version p, root with
  | None, _ => false
  | Some _, None => true
  | Some v, Some r => negb (compare_to v r =? 0)
  end.

(** ExtensionVersionMatcher.java:17-31 *)
Definition extension_matches (core extension : list Z) : bool :=
  match parse_version core, parse_version extension with
  | Some v, Some w => (major v =? major w) && (minor v =? minor w) && (0 <=? compare_to v w)
  | _, _ => false
  end.
