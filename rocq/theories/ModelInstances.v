(** Model of which references to templates share one instantiation, and of the names of the instantiations: ZserioAstTemplator.instantiate and
    resolveInstantiationNames with what they call (ZserioAstTemplator.java:131-420), TemplateArgument.equals (TemplateArgument.java:43-62),
    Package.getVisibleInstantiateType and InstantiateTypeMapKey (Package.java:265-320, 380-420), HashUtil.hash (HashUtil.java:30-60, 100-130), all in
    compiler/core/src/zserio.

    Simplifications.
    - The references are given in the order in which they are visited, with their arguments resolved: what the instantiation of one reference makes the compiler
      visit (the references within the instantiated type) is part of that order.
    - ParserException is [RuntimeExc], without its message; warnings are left out.
    - Names are ASCII. *)
From Coq Require Import String Ascii.
From Verif Require Import Base ModelPackages.
Local Open Scope string_scope.
Local Open Scope list_scope.
Local Open Scope Z_scope.

Definition symbol : Type := package_name * string.

(** A template argument after its own templates have been instantiated: the type that it refers to.  [AInstance t at_ args] is an instantiation of the template [t]
    that has been put in the package [at_]; until its name is resolved its name is that of the template (TemplatableType.java:93, StructureType.java:52). *)
Inductive argument :=
  | ABuiltin (n : string)
  | APlain (s : symbol)
  | AInstance (t : symbol) (at_ : package_name) (args : list argument)
  | ASubtype (s : symbol) (base : argument)
  | AInstantiate (s : symbol) (base : argument).

(** What TemplateArgument.equals compares: TypeReference.getBaseTypeReference goes through subtypes and `instantiate` types; then the full name of the type and the
    template arguments of the reference *)
Inductive shape := Shape (full_name : symbol) (args : list shape).
Fixpoint shape_of (a : argument) : shape :=
  match a with
  | ABuiltin n => Shape ([], n) []
  | APlain s => Shape s []
  | AInstance t at_ args => Shape (at_, snd t) (map shape_of args)
  | ASubtype _ b | AInstantiate _ b => shape_of b
  end.
Fixpoint shape_eqb (a b : shape) : bool :=
  match a, b with
  | Shape x xs, Shape y ys =>
      symbol_eqb x y &&
      (fix each (xs ys : list shape) : bool :=
         match xs, ys with
         | [], [] => true
         | x :: xs, y :: ys => shape_eqb x y && each xs ys
         | _, _ => false
         end) xs ys
  end.
Fixpoint shapes_eqb (xs ys : list shape) : bool :=
  match xs, ys with
  | [], [] => true
  | x :: xs, y :: ys => shape_eqb x y && shapes_eqb xs ys
  | _, _ => false
  end.
(** TemplateArgument.equals for lists *)
Definition arguments_eqb (xs ys : list argument) : bool := shapes_eqb (map shape_of xs) (map shape_of ys).

(** An InstantiateType that is visible in a package.  Its key in visibleInstantiateTypeMap is put there under the hash code of the arguments as they are when the map
    is filled, which is when the first template is instantiated in the package; the arguments are compared as they are later.  The name of a template in the arguments
    is another one by then if it has been instantiated into another package. *)
Record request := { r_symbol : symbol; r_template : symbol; r_stored : list shape; r_args : list argument }.

Section Requests.
Context (requests : package_name -> list request).   (* the `instantiate` types of the package and of its imports *)

(** Package.getVisibleInstantiateType.  It finds a key that is equal and that has been stored under the same hash code. *)
Definition visible_instantiate (c : package_name) (t : symbol) (args : list argument) : option symbol :=
  match find (fun r => symbol_eqb (r_template r) t && arguments_eqb (r_args r) args && shapes_eqb (r_stored r) (map shape_of args)) (requests c) with
  | Some r => Some (r_symbol r)
  | None => None
  end.

(** StringJoinUtil.joinStrings with "_" *)
Definition underscored (p : package_name) : string := String.concat "_" p.

(** argumentType.getName().replace(":", "_") *)
Fixpoint no_colon (n : string) : string :=
  match n with
  | String c n => String (if Ascii.eqb c ":" then "_"%char else c) (no_colon n)
  | EmptyString => EmptyString
  end.

(** The package (none for built-in types) and the name of the type that an argument refers to *)
Definition type_name (a : argument) : option package_name * string :=
  match a with
  | ABuiltin n => (None, n)
  | APlain s | ASubtype s _ | AInstantiate s _ => (Some (fst s), snd s)
  | AInstance t at_ _ => (Some at_, snd t)
  end.

(** appendTemplateArgument from the test for subtypes on: the text for the type that the argument refers to.  The type that a subtype refers to has no arguments, as
    it is those of the reference to the subtype that are taken. *)
Definition type_suffix (full : bool) (a : argument) : string :=
  let '(p, n) := type_name (match a with ASubtype _ b => b | _ => a end) in
  (match p with
   | Some (x :: xs) => if full then "_" ++ underscored (x :: xs) else ""
   | _ => ""
   end ++ "_" ++ no_colon n)%string.

(** ZserioAstTemplator.appendTemplateArgument (ZserioAstTemplator.java:249-297) in the package [c] *)
Fixpoint suffix (c : package_name) (full : bool) (a : argument) : string :=
  match a with
  | AInstance t at_ args =>
      match visible_instantiate c (at_, snd t) args with
      | Some s => ((if full then "_" ++ underscored (fst s) else "") ++ "_" ++ snd s)%string
      | None => (type_suffix full a ++ String.concat "" (map (suffix c full) args))%string
      end
  | _ => type_suffix full a
  end.

(** ZserioAstTemplator.generateInstantiationName (ZserioAstTemplator.java:228-247) *)
Definition full_name (c : package_name) (t : symbol) (args : list argument) : string := (snd t ++ String.concat "" (map (suffix c true) args))%string.
Definition whole_name (c : package_name) (t : symbol) (args : list argument) : string := (snd t ++ String.concat "" (map (suffix c false) args))%string.
Definition abridge (n : string) : string := if (64 <? String.length n)%nat then (substring 0 63 n ++ "_")%string else n.
Definition short_name (c : package_name) (t : symbol) (args : list argument) : string := abridge (whole_name c t args).

(** HashUtil.hash for characters; int is that of 32 bits, taken modulo 2^32 *)
Fixpoint hash (seed : Z) (n : string) : Z :=
  match n with
  | EmptyString => seed
  | String c n => hash ((37 * seed + Z.of_nat (nat_of_ascii c)) mod 2 ^ 32) n
  end.
(** String.format("%08X", …) *)
Definition hex_digit (d : Z) : ascii := ascii_of_nat (Z.to_nat (if d <? 10 then d + 48 else d + 55)).
Fixpoint hex (k : nat) (z : Z) : string :=
  match k with
  | O => EmptyString
  | S k => (hex k (z / 16) ++ String (hex_digit (z mod 16)) "")%string
  end.
(** ZserioAstTemplator.generateInstantiationHashCode (ZserioAstTemplator.java:201-214) *)
Definition hash_code (n : string) : string := hex 8 (hash 23 n).

(** InstantiationMapKey and InstantiationMapValue *)
Record instance := { i_package : package_name; i_short : string; i_hash : string; i_template : symbol; i_args : list argument }.
Definition same_short (p : package_name) (n : string) (i : instance) : bool := name_eqb (i_package i) p && String.eqb (i_short i) n.
Definition same_key (p : package_name) (n h : string) (i : instance) : bool := same_short p n i && String.eqb (i_hash i) h.

(** instantiationMap and instantiationClashMap *)
Record templator := { instances : list instance; clashes : list (symbol * bool) }.
Definition clash (s : symbol) (l : list (symbol * bool)) : option bool :=
  match find (fun e => symbol_eqb (fst e) s) l with Some e => Some (snd e) | None => None end.

(** ZserioAstTemplator.instantiate (ZserioAstTemplator.java:131-199) for a reference in the package [c] to the template [t] *)
Definition instantiate (c : package_name) (t : symbol) (args : list argument) (st : templator) : res (instance * templator) :=
  let '(p, n, h) :=
    match visible_instantiate c t args with
    | Some s => (fst s, snd s, "")
    | None => (fst t, short_name c t args, hash_code (full_name c t args))
    end in
  match find (same_key p n h) (instances st) with
  | Some i => if arguments_eqb (i_args i) args then Ok (i, st) else Raise RuntimeExc
  | None =>
      let i := {| i_package := p; i_short := n; i_hash := h; i_template := t; i_args := args |} in
      Ok (i, {| instances := instances st ++ [i];
                clashes := ((p, n), match clash (p, n) (clashes st) with Some _ => true | None => false end) :: clashes st |})
  end.

(** The references of the program, in the order in which they are visited *)
Record use := { u_package : package_name; u_template : symbol; u_args : list argument }.
Fixpoint instantiate_all (l : list use) (st : templator) : res (list instance * templator) :=
  match l with
  | [] => Ok ([], st)
  | u :: l => match instantiate (u_package u) (u_template u) (u_args u) st with
              | Ok (i, st) => match instantiate_all l st with Ok (is, st) => Ok (i :: is, st) | Raise e => Raise e end
              | Raise e => Raise e
              end
  end.
Definition no_instances : templator := {| instances := []; clashes := [] |}.

(** ZserioAstTemplator.resolveInstantiationNames and checkInstantiationName (ZserioAstTemplator.java:332-373); [D] gives the local symbols of the packages. *)
Definition final_name (D : packages) (st : templator) (i : instance) : res string :=
  if String.eqb (i_hash i) "" then Ok (i_short i)
  else
    let n :=
      if match clash (i_package i, i_short i) (clashes st) with Some b => b | None => false end
         || match defines D (i_package i) (i_short i) with Some _ => true | None => false end
      then ((if (64 - 1 - String.length (i_hash i) <? String.length (i_short i))%nat then substring 0 (64 - 1 - String.length (i_hash i)) (i_short i) else i_short i)
              ++ "_" ++ i_hash i)%string
      else i_short i in
    match defines D (i_package i) n with Some _ => Raise RuntimeExc | None => Ok n end.
Fixpoint final_names (D : packages) (st : templator) (l : list instance) : res (list string) :=
  match l with
  | [] => Ok []
  | i :: l => match final_name D st i with
              | Ok n => match final_names D st l with Ok ns => Ok (n :: ns) | Raise e => Raise e end
              | Raise e => Raise e
              end
  end.
Definition all_names (D : packages) (st : templator) : res (list string) := final_names D st (instances st).
End Requests.

(** ** Templates within templates: which instantiations one reference leads to *)
From Verif Require Import ModelTemplates.

(** The arguments in place of the parameters (TypeReference.instantiate, TypeReference.java:190-235) *)
Fixpoint in_place (args : list ztype) (t : ztype) : ztype :=
  match t with
  | ZBuiltin n => ZBuiltin n
  | ZUser s ts => ZUser s (map (in_place args) ts)
  | ZParam i => match nth_error args i with Some a => a | None => ZParam i end
  end.

Fixpoint type_eqb (a b : ztype) : bool :=
  match a, b with
  | ZBuiltin n, ZBuiltin m => String.eqb n m
  | ZUser s xs, ZUser r ys =>
      symbol_eqb s r &&
      (fix each (xs ys : list ztype) : bool :=
         match xs, ys with
         | [], [] => true
         | x :: xs, y :: ys => type_eqb x y && each xs ys
         | _, _ => false
         end) xs ys
  | ZParam i, ZParam j => Nat.eqb i j
  | _, _ => false
  end.

Section Visit.
Context (body : package_name * string -> list ztype).   (* the types in a template *)

(** ZserioAstTemplator.visitTypeReference and instantiate (ZserioAstTemplator.java:72-124, 157-198): the arguments are visited, then the instantiation is looked up
    in [seen] and, if it is not there, put there and its own references are visited.  The recursion is that of the calls; [fuel] bounds it like the stack does. *)
Fixpoint visit (fuel : nat) (seen : list ztype) (t : ztype) : res (list ztype) :=
  match fuel with
  | O => Raise RecursionErr
  | S fuel =>
      let visit_all :=
        fix visit_all (seen : list ztype) (l : list ztype) : res (list ztype) :=
          match l with
          | [] => Ok seen
          | t :: l => match visit fuel seen t with Ok seen => visit_all seen l | Raise e => Raise e end
          end in
      match t with
      | ZBuiltin _ | ZParam _ | ZUser _ [] => Ok seen
      | ZUser s args =>
          match visit_all seen args with
          | Raise e => Raise e
          | Ok seen => if existsb (type_eqb t) seen then Ok seen else visit_all (t :: seen) (map (in_place args) (body s))
          end
      end
  end.
End Visit.
