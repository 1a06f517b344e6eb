(** Model of the types of columns: compiler/core/src/zserio/extension/common/sql/SqlNativeTypeMapper.java and
    compiler/core/src/zserio/extension/common/sql/types/.

    The mapper looks at the type behind subtypes; [ftype] is that type.  visitTypeInstantiation (lines 141-145) is never
    reached, as getSqlType visits a type and not an instantiation. *)
From Coq Require Import String.
From Verif Require Import Base ModelArray ModelSchema.

(** NativeIntegerType.java, NativeRealType.java, NativeTextType.java, NativeBlobType.java *)
Inductive native := NInteger | NReal | NText | NBlob.
(** getFullName: NativeIntegerType.java:41, NativeRealType.java:39, NativeTextType.java:70, NativeBlobType.java:26 *)
Definition native_name (n : native) : string :=
  match n with NInteger => "INTEGER" | NReal => "REAL" | NText => "TEXT" | NBlob => "BLOB" end%string.

(** SqlNativeTypeMapper.java:42-158; [None] is the ZserioExtensionException of lines 51-56 *)
Definition get_sql_type (t : ftype) : option native :=
  match t with
  | TBool => Some NInteger
  | TObj _ _ => Some NBlob
  | TEnum _ _ => Some NInteger
  | TMask _ => Some NInteger
  | TFloat16 | TFloat32 | TFloat64 => Some NReal
  | TInt _ => Some NInteger
  | TDyn _ _ => Some NInteger
  | TString => Some NText
  | TBytes | TBitBuffer => None
  end.

(** What stands after the name of a column: fm/SqlTable.py.ftl:386.  Virtual tables may have no types
    (needsTypesInSchema). *)
Definition declared (needs_types : bool) (t : ftype) : option string :=
  match get_sql_type t with
  | None => None
  | Some n => Some (if needs_types then native_name n else EmptyString)
  end.
