(** Examples for the theorems about the instantiations of templates. *)
From Coq Require Import String Ascii.
From Verif Require Import Base ModelPackages ModelTemplates ModelInstances SpecInstances.
Local Open Scope string_scope.
Local Open Scope list_scope.

Definition lib : package_name := ["lib"].
Definition app_ : package_name := ["app"].
Definition no_requests : package_name -> list request := fun _ => [].
Definition uint8 : argument := ABuiltin "uint8".
Definition use_of (c : package_name) (t : symbol) (args : list argument) : use := {| u_package := c; u_template := t; u_args := args |}.

(** `lib` declares Field and Box; Field<uint8> and Box<Field<uint8>> are used in `lib` and in `app`, there with a subtype of uint8. *)
Definition field_of (c : package_name) (a : argument) : use := use_of c (lib, "Field") [a].
Definition shared_uses : list use :=
  [field_of lib uint8; use_of lib (lib, "Box") [AInstance (lib, "Field") lib [uint8]]; field_of app_ (ASubtype (app_, "Byte") uint8);
   use_of app_ (lib, "Box") [AInstance (lib, "Field") lib [ASubtype (app_, "Byte") uint8]]; field_of app_ (ABuiltin "bit:4")].

(** The local symbols of `lib` *)
Definition lib_symbols : packages := fun p => if name_eqb p lib then Some (fun n => if existsb (String.eqb n) ["Field"; "Box"; "Field_uint8"] then Some KType else None)
                                              else if name_eqb p app_ then Some (fun n => if existsb (String.eqb n) ["Byte"; "Field32"] then Some KType else None) else None.
Definition names_of (requests : package_name -> list request) (D : packages) (l : list use) : option (list (package_name * string)) :=
  match instantiate_all requests l no_instances with
  | Ok (is, st) => match final_names D st is with Ok ns => Some (List.combine (map i_package is) ns) | Raise _ => None end
  | Raise _ => None
  end.
Example shared_names : names_of no_requests lib_symbols shared_uses =
  Some [(lib, "Field_uint8_35FB1D72"); (lib, "Box_Field_uint8"); (lib, "Field_uint8_35FB1D72"); (lib, "Box_Field_uint8"); (lib, "Field_bit_4")].
Proof. vm_compute. reflexivity. Qed.

(** The names that the tests of the compiler expect (test/core/errors/templates_error/zs/hashed_template_name_clash_error.zs,
    test/extensions/language/templates/python/StructTemplateClashOtherTemplateTest.py:9) *)
Example known_hashes :
  hash_code (full_name no_requests ["hashed_template_name_clash_error"] (["hashed_template_name_clash_error"], "Test") [APlain (["hashed_template_name_clash_error"], "A_uint32")]) = "F2945EA9" /\
  hash_code (full_name no_requests [] ([], "Test_A") [ABuiltin "uint32"]) = "FA82A3B7".
Proof. vm_compute. auto. Qed.

(** `instantiate Field<uint32> Field32;` in `app`, used there *)
Definition field32 : request := {| r_symbol := (app_, "Field32"); r_template := (lib, "Field"); r_stored := [Shape ([], "uint32") []]; r_args := [ABuiltin "uint32"] |}.
Definition app_requests : package_name -> list request := fun p => if name_eqb p app_ then [field32] else [].
Definition requested_uses : list use := [field_of lib (ABuiltin "uint32"); field_of app_ (ABuiltin "uint32"); field_of app_ uint8].
Example requested_names : names_of app_requests lib_symbols requested_uses = Some [(lib, "Field_uint32"); (app_, "Field32"); (lib, "Field_uint8_35FB1D72")].
Proof. vm_compute. reflexivity. Qed.

(** ** Where it goes wrong *)
Definition outer (c : package_name) (a : argument) : use := use_of c (lib, "Outer") [a].
Definition inner8 (at_ : package_name) : argument := AInstance (lib, "Inner") at_ [uint8].

(** `instantiate lib1.Inner<uint8> A; instantiate lib2.Inner<uint8> B;` in `app` *)
Definition twin_requests : package_name -> list request := fun p =>
  if name_eqb p app_ then [{| r_symbol := (app_, "A"); r_template := (["lib1"], "Inner"); r_stored := [Shape ([], "uint8") []]; r_args := [uint8] |};
                           {| r_symbol := (app_, "B"); r_template := (["lib2"], "Inner"); r_stored := [Shape ([], "uint8") []]; r_args := [uint8] |}] else [].
Definition twin_uses : list use :=
  [use_of app_ (["lib1"], "Inner") [uint8]; outer app_ (AInstance (["lib1"], "Inner") app_ [uint8]); use_of app_ (["lib2"], "Inner") [uint8];
   outer app_ (AInstance (["lib2"], "Inner") app_ [uint8])].

(** Templates with long names *)
Definition long_name (e : string) : string := ("ThisIsTheNameOfAStructureWithALotOfTextInItThatGoesOnForeverAnd" ++ e)%string.
Definition long_uses : list use := [use_of lib (lib, long_name "Af") [uint8]; use_of lib (lib, long_name "BA") [uint8]].

(** `subtype Inner<uint8> S;` *)
Definition subtype_uses : list use := [outer lib (inner8 lib); outer lib (ASubtype (lib, "S") (inner8 lib))].
(** `subtype Inner<uint8> S1; subtype Inner<uint16> S2;` *)
Definition subtypes_uses : list use := [outer lib (ASubtype (lib, "S1") (inner8 lib)); outer lib (ASubtype (lib, "S2") (AInstance (lib, "Inner") lib [ABuiltin "uint16"]))].

(** The templates T and T_Color in `lib`, with structures Color and BE2941B7 *)
Definition hash_uses : list use := [use_of lib (lib, "T") [APlain (lib, "Color")]; use_of lib (lib, "T_Color") [APlain (lib, "BE2941B7")]].
Definition hash_symbols : packages := fun p => if name_eqb p lib then Some (fun n => if existsb (String.eqb n) ["T"; "T_Color"; "Color"; "BE2941B7"] then Some KType else None) else None.

(** `instantiate Outer<Inner<uint8>> OI; instantiate Inner<uint8> I;` in `app`: the map of the `instantiate` types is filled when Inner<uint8> in the first one is
    visited, which then becomes one in `app`. *)
Definition oi : request := {| r_symbol := (app_, "OI"); r_template := (lib, "Outer"); r_stored := [Shape (lib, "Inner") [Shape ([], "uint8") []]]; r_args := [inner8 app_] |}.
Definition nested_requests : package_name -> list request := fun p =>
  if name_eqb p app_ then [oi; {| r_symbol := (app_, "I"); r_template := (lib, "Inner"); r_stored := [Shape ([], "uint8") []]; r_args := [uint8] |}] else [].
Definition nested_uses : list use := [use_of app_ (lib, "Inner") [uint8]; outer app_ (inner8 app_)].
Example nested_names : names_of nested_requests (fun _ => None) nested_uses = Some [(app_, "I"); (lib, "Outer_Inner_uint8")].
Proof. vm_compute. reflexivity. Qed.

(** Templates in templates: Field<X> { X f; }, Box<X> { Field<X> f; Box<X> next; } *)
Definition field_type (t : ztype) : ztype := ZUser (lib, "Field") [t].
Definition box_type (t : ztype) : ztype := ZUser (lib, "Box") [t].
Definition boxes (s : package_name * string) : list ztype :=
  if String.eqb (snd s) "Field" then [ZParam 0] else if String.eqb (snd s) "Box" then [field_type (ZParam 0); box_type (ZParam 0)] else [].
Definition box_types : list ztype := [ZBuiltin "uint8"; field_type (ZBuiltin "uint8"); box_type (ZBuiltin "uint8")].
Example boxes_end : visit boxes 4 [] (box_type (ZBuiltin "uint8")) = Ok [field_type (ZBuiltin "uint8"); box_type (ZBuiltin "uint8")].
Proof. vm_compute. reflexivity. Qed.
