(** Model of the values of enum items and bitmask values (core/src/zserio/ast: EnumType.java, EnumItem.java, BitmaskType.java, BitmaskValue.java), of the
    check of constants and initializers (Constant.java:80-97, ExpressionUtil.java:48-68) and of the classes generated for enums and bitmasks
    (fm/Enumeration.py.ftl, fm/Bitmask.py.ftl, rt/enum.py).

    Not modelled: base types that are dynamic bit fields, the warnings of deprecated items and docs.  Names are those of the generated code, see C62 for
    how they come about and when they are distinct. *)
From Coq Require Import String.
From Verif Require Import Base ModelArray ModelSchema PyExpr ModelExpr ModelCompile ModelBounds ModelMask.
Local Open Scope list_scope.
Local Open Scope Z_scope.

Section Items.
Context (g : scope) (leaf : expr -> ival).

(** EnumItem.java:112-126 and the same lines of BitmaskValue.java:83-103: the expression is of type integer and its value, null is [None] *)
Definition explicit_value (e : expr) : option Z :=
  match type_of g e, bounds g leaf e with Some TyInt, Some i => iv_value i | _, _ => None end.

(** EnumType.java:98-117; an expression without value ends in a NullPointerException, which is [None] *)
Fixpoint enum_values (default : Z) (items : list (option expr)) : option (list Z) :=
  match items with
  | [] => Some []
  | it :: items =>
      match (match it with Some e => explicit_value e | None => Some default end) with
      | Some v => match enum_values (v + 1) items with Some vs => Some (v :: vs) | None => None end
      | None => None
      end
  end.

(** BitmaskType.java:131-138: the loop counts the shifts to the right that leave something *)
Fixpoint shifts_left (p : positive) : Z := match p with xH => 0 | xO p | xI p => 1 + shifts_left p end.
Definition next_value (last : Z) : Z := Z.shiftl 1 ((match last with Zpos p => shifts_left p | _ => 0 end) + 1).
(** BitmaskType.java:100-122 *)
Fixpoint mask_values (default : Z) (items : list (option expr)) : option (list Z) :=
  match items with
  | [] => Some []
  | it :: items =>
      match (match it with Some e => match explicit_value e with Some v => if v <? 0 then None else Some v | None => None end | None => Some default end) with
      | Some v => match mask_values (next_value v) items with Some vs => Some (v :: vs) | None => None end
      | None => None
      end
  end.

(** EnumType.java:128-158, BitmaskType.java:140-172: duplicates and bounds, in the order of the items; [seen] are the keys of the map *)
Fixpoint check_values (lo hi : Z) (seen : list Z) (vs : list Z) : bool :=
  match vs with
  | [] => true
  | v :: vs => if existsb (Z.eqb v) seen then false else if (v <? lo) || (hi <? v) then false else check_values lo hi (v :: seen) vs
  end.
Definition checked_values (ty : btype) (vs : option (list Z)) : option (list Z) :=
  match vs, java_bounds ty with
  | Some vs, Some (lo, hi) => if check_values lo hi [] vs then Some vs else None
  | _, _ => None
  end.
(** The values of an accepted enum or bitmask.  Only unsigned base types are taken for bitmasks (BitmaskType.java:103-108). *)
Definition unsigned (ty : btype) : bool :=
  match ty with JStd t => negb (std_signed t) | JFixed s _ => negb s | JVar t => negb (var_signed t) | _ => false end.
Definition compile_enum (ty : btype) (items : list (option expr)) : option (list Z) := checked_values ty (enum_values 0 items).
Definition compile_mask (ty : btype) (items : list (option expr)) : option (list Z) :=
  if unsigned ty then checked_values ty (mask_values 1 items) else None.

(** Constant.java:80-97 and Field.java:293-301 for integers: the type of the expression, and the range if the value is known *)
Definition initializer_ok (ty : btype) (e : expr) : bool :=
  match type_of g e, bounds g leaf e, java_bounds ty with
  | Some TyInt, Some i, Some (lo, hi) => match iv_value i with Some v => (lo <=? v) && (v <=? hi) | None => true end
  | _, _, _ => false
  end.
End Items.

(** ** Generated classes *)
(** The body of the class statement is the list of its items; [cls(value)] is the first member with the value (enum.EnumMeta, rt/enum.py:28-36),
    [cls.NAME] the member the name was given to, which is the first with this value. *)
Definition member := (list Z * Z)%type.
Definition class_call (ms : list member) (value : Z) : res member :=
  match find (fun m => snd m =? value) ms with Some m => Ok m | None => Raise ValueErr end.
Definition class_attribute (ms : list member) (name : list Z) : res member :=
  match find (fun m => if list_eq_dec Z.eq_dec (fst m) name then true else false) ms with
  | Some m => class_call ms (snd m)
  | None => Raise AttributeErr
  end.
(** fm/Enumeration.py.ftl:23-41 *)
Definition class_from_name (ms : list member) (name : list Z) : res member :=
  if existsb (fun m => if list_eq_dec Z.eq_dec name (fst m) then true else false) ms then class_attribute ms name else Raise RuntimeExc.

(** fm/Bitmask.py.ftl:113-131; [k] is the kind of the base type *)
Definition separator : list Z := [32; 124; 32].
Fixpoint mask_names (k : ikind) (value : Z) (ms : list member) (result : list Z) : res (list Z) :=
  match ms with
  | [] => Ok result
  | (name, v) :: ms =>
      if v =? 0 then mask_names k value ms result
      else
        x <-? mask_and k value v ;;
        y <-? mask_from_value k v ;;
        mask_names k value ms (if mask_eq x y then match result with [] => name | _ => (result ++ separator ++ name)%list end else result)
  end.
Definition zero_name (ms : list member) : option (list Z) := option_map fst (find (fun m => snd m =? 0) (rev ms)).
Definition mask_str (k : ikind) (ms : list member) (value : Z) : res (list Z) :=
  result <-? mask_names k value ms [] ;;
  Ok (match zero_name ms, result with Some name, [] => if value =? 0 then name else [] | _, _ => result end).
