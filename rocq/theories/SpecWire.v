(** The wire format of the Zserio Encoding Guide (/repo/doc/ZserioEncodingGuide.md), as a specification that is
    independent of the code: an object is a sequence of tokens, and the tokens have a layout at a bit position.
    The bits of built-in types are those of [call_bits] (SpecStream.v). *)
From Verif Require Import Base SpecBits SpecStream ModelBitBuffer ModelArray ModelSchema SpecSchema.

Definition obind {A B} (m : option A) (k : A -> option B) : option B := match m with Some a => k a | None => None end.
Notation "x <-! m ;; k" := (obind m (fun x => k)) (at level 61, m at next level, right associativity).
Definition given_by {A} (m : res A) : option A := match m with Ok a => Some a | Raise _ => None end.

(** An integer field within the elements of a packed array is known by its path. *)
Inductive token :=
| KCall (c : wcall)                      (* a built-in value or an alignment *)
| KOffset (x : Z)                        (* nothing; the position must be x bytes *)
| KInt (path : key) (k : ikind) (z : Z). (* an integer that is still to be packed *)

(** ** Layout at a bit position *)
Fixpoint layout (p : nat) (ts : list token) : option (list bool) :=
  match ts with
  | [] => Some []
  | KCall c :: ts => b <-! call_bits p c ;; r <-! layout (p + length b) ts ;; Some (b ++ r)
  | KOffset x :: ts => if Z.of_nat p =? 8 * x then layout p ts else None
  | KInt _ _ _ :: _ => None
  end.

(** ** Integers *)
Definition int_call (k : ikind) (z : Z) : wcall :=
  match k with IBits n => WBits z n | ISigned n => WSigned z n | IVar t => WVar t z end.
Definition int_size (k : ikind) (z : Z) : Z :=
  match k with IBits n | ISigned n => n | IVar t => Z.of_nat (length (vt_bits t z)) end.

(** ** Packed arrays.  The values with the same path form a column. *)
Fixpoint column (path : key) (ts : list token) : list (ikind * Z) :=
  match ts with
  | [] => []
  | KInt p k z :: ts => if key_eqb p path then (k, z) :: column path ts else column path ts
  | _ :: ts => column path ts
  end.
Fixpoint deltas (z : Z) (l : list Z) : list Z :=
  match l with [] => [] | y :: l => (y - z) :: deltas y l end.
(** The number of bits of a delta without its sign *)
Definition width (d : Z) : Z := if d =? 0 then 0 else Z.log2 (Z.abs d) + 1.
Definition max_of (l : list Z) : Z := fold_right Z.max 0 l.
Definition sum_of (l : list Z) : Z := fold_right Z.add 0 l.
(** No delta is stored if all are zero. *)
Definition delta_size (m : Z) : Z := if m =? 0 then 0 else m + 1.
(** [Some m]: the column is packed with deltas of [m] bits and a sign; only if it is shorter then. *)
Definition plan (c : list (ikind * Z)) : option Z :=
  match c with
  | [] => None
  | (k, z) :: r =>
      let m := max_of (map width (deltas z (map snd r))) in
      if (m <=? 62) &&
         (1 + 6 + int_size k z + zlen r * delta_size m <? 1 + sum_of (map (fun x => int_size (fst x) (snd x)) c))
      then Some m else None
  end.
(** PackingDescriptor: is_packed and max_bit_number *)
Definition descriptor (m : option Z) : list wcall :=
  match m with Some m => [WBool true; WBitsUnchecked m 6] | None => [WBool false] end.
(** How the next value of a column is stored; [prev]: the value stored last *)
Definition packed_calls (m : option Z) (prev : option Z) (k : ikind) (z : Z) : list wcall :=
  match prev, m with
  | None, _ => descriptor m ++ [int_call k z]
  | Some _, None => [int_call k z]
  | Some y, Some m => if m =? 0 then [] else [WSignedUnchecked (z - y) (m + 1)]
  end.
Fixpoint pack_from (plans prev : key -> option Z) (ts : list token) : list token :=
  match ts with
  | [] => []
  | KInt path k z :: ts =>
      map KCall (packed_calls (plans path) (prev path) k z) ++
      pack_from plans (fun path' => if key_eqb path' path then Some z else prev path') ts
  | t :: ts => t :: pack_from plans prev ts
  end.
(** Whether to pack depends on the size of every value; an integer of variable size has one within its range only. *)
Definition has_size (t : token) : bool := match t with KInt _ (IVar t) z => vt_rangeb t z | _ => true end.
Definition pack (ts : list token) : option (list token) :=
  if forallb has_size ts then Some (pack_from (fun path => plan (column path ts)) (fun _ => None) ts) else None.

(** ** Values *)
Definition int_token (pk : option key) (k : ikind) (z : Z) : token :=
  match pk with Some path => KInt path k z | None => KCall (int_call k z) end.

Section Tokens.
(** [rec pk v]: the tokens of an object; in a packed array, [pk] is the path of the object *)
Context (rec : option key -> value -> option (list token)).

Definition value_tokens (e : env) (ty : ftype) (pk : option key) (v : value) : option (list token) :=
  match ty, v with
  | TInt k, VInt z | TEnum k _, VEnum z | TMask k, VMask z => Some [int_token pk k z]
  | TDyn signed len, VInt z => n <-! given_by (len e) ;; Some [int_token pk (if signed then ISigned n else IBits n) z]
  | TFloat16, VFloat d => Some [KCall (WFloat16 d)]
  | TFloat32, VFloat d => Some [KCall (WFloat32 d)]
  | TFloat64, VFloat d => Some [KCall (WFloat64 d)]
  | TBool, VBool b => Some [KCall (WBool b)]
  | TString, VStr s => Some [KCall (WString s)]
  | TBytes, VBytes l => Some [KCall (WBytes l)]
  | TBitBuffer, VBits b => Some [KCall (WBitBuffer b)]
  | TObj _ _, _ => rec pk v
  | _, _ => None
  end.

(** An offset: the position is a byte position and the offset holds it. *)
Definition offset_tokens (o : option offset) (e : env) : option (list token) :=
  match o with Some o => x <-! given_by (off_get o e) ;; Some [KCall (WAlign 8); KOffset x] | None => Some [] end.

(** ** Arrays *)
Fixpoint element_tokens (e : env) (ty : ftype) (pk : option key) (o : option offset) (i : Z) (l : list value) : option (list token) :=
  match l with
  | [] => Some []
  | v :: l =>
      t1 <-! offset_tokens o (with_index e i) ;;
      t2 <-! value_tokens e ty pk v ;;
      t3 <-! element_tokens e ty pk o (i + 1) l ;;
      Some (t1 ++ t2 ++ t3)
  end.
Definition array_tokens (e : env) (ty : ftype) (auto packed : bool) (o : option offset) (l : list value) : option (list token) :=
  ts <-! element_tokens e ty (if packed then Some [] else None) o 0 l ;;
  ts <-! (if packed then pack ts else Some ts) ;;
  Some ((if auto then [KCall (WVar VarSize (zlen l))] else []) ++ ts).

(** ** Fields *)
(** The path of field number [i] of the object at path [pk]; an optional recursive field has the path of its owner. *)
Definition field_path (f : field) (i : nat) (pk : option key) : option key :=
  match pk, f_arr f with
  | Some path, None =>
      if f_packable f then Some (if f_rec f && match f_opt f with ONone => false | _ => true end then path else S i :: path) else None
  | _, _ => None
  end.
Definition indexed_offset (f : field) : option offset := match f_offset f with Some o => if off_indexed o then Some o else None | None => None end.
Definition single_offset (f : field) : option offset := match f_offset f with Some o => if off_indexed o then None else Some o | None => None end.

(** Arrays within the elements of a packed array are packed as well. *)
Definition content_tokens (f : field) (i : nat) (e : env) (pk : option key) (v : value) : option (list token) :=
  match f_arr f with
  | None => value_tokens e (f_ty f) (field_path f i pk) v
  | Some (a, keyword) =>
      match v with
      | VArray l =>
          array_tokens e (f_ty f) (match a with AAuto => true | _ => false end)
            (f_packable f && (keyword || match pk with Some _ => true | None => false end)) (indexed_offset f) l
      | _ => None
      end
  end.
Definition used_tokens (f : field) (i : nat) (e : env) (pk : option key) (v : value) : option (list token) :=
  t1 <-! offset_tokens (single_offset f) e ;;
  t2 <-! content_tokens f i e pk v ;;
  Some (match f_align f with Some a => [KCall (WAlign a)] | None => [] end ++ t1 ++ t2).
Definition field_tokens (f : field) (i : nat) (e : env) (pk : option key) (v : value) : option (list token) :=
  match f_opt f, v with
  | ONone, _ => used_tokens f i e pk v
  | OAuto, VNone => Some [KCall (WBool false)]
  | OAuto, _ => ts <-! used_tokens f i e pk v ;; Some (KCall (WBool true) :: ts)
  | OClause c, _ => used <-! given_by (c e) ;; if used : bool then used_tokens f i e pk v else Some []
  end.

(** ** Structures: field by field; [n] is the number of extended fields still present *)
Fixpoint struct_tokens (ps : list value) (pk : option key) (done : list value) (n : Z) (fs : list field) (vs : list value) : option (list token) :=
  match fs, vs with
  | [], [] => Some []
  | f :: fs, v :: vs =>
      let e := {| e_params := ps; e_fields := done; e_index := 0 |} in
      t1 <-! (if f_ext f then if 0 <? n then ts <-! field_tokens f (length done) e pk v ;; Some (KCall (WAlign 8) :: ts) else Some []
              else field_tokens f (length done) e pk v) ;;
      t2 <-! struct_tokens ps pk (done ++ [v]) (if f_ext f then n - 1 else n) fs vs ;;
      Some (t1 ++ t2)
  | _, _ => None
  end.

(** ** Choices: the member of the first case that has the selector among its labels ([value_eqb] decides equality) *)
Fixpoint selected (sel : value) (i : nat) (cases : list (list value * option field)) (default : option (option field)) : option (option (nat * field)) :=
  match cases with
  | [] => m <-! default ;; Some (option_map (fun f => (i, f)) m)
  | (labels, m) :: cases => if existsb (value_eqb sel) labels then Some (option_map (fun f => (i, f)) m) else selected sel (S i) cases default
  end.
Definition has_member (cases : list (list value * option field)) (default : option (option field)) : bool :=
  existsb (fun c => match snd c with Some _ => true | None => false end) cases || match default with Some (Some _) => true | _ => false end.

Definition member_tokens (f : field) (i : nat) (ps : list value) (pk : option key) (c : value) : option (list token) :=
  ts <-! field_tokens f i {| e_params := ps; e_fields := []; e_index := 0 |} pk c ;; Some ((if f_ext f then [KCall (WAlign 8)] else []) ++ ts).

Definition decl_tokens (d : decl) (pk : option key) (v : value) : option (list token) :=
  match d, v with
  | DStruct fs, VStruct _ ps vs n => struct_tokens ps pk [] n fs vs
  | DChoice selector cases default, VChoice _ ps c =>
      if has_member cases default then
        sel <-! match cases with [] => Some VNone | _ => given_by (selector {| e_params := ps; e_fields := []; e_index := 0 |}) end ;;
        m <-! selected sel 0 cases default ;;
        match m with Some (i, f) => member_tokens f i ps pk c | None => Some [] end
      else Some []
  | DUnion [], VUnion _ _ _ _ => Some []
  | DUnion fs, VUnion _ ps tag c =>
      f <-! nth_error fs (Z.to_nat tag) ;;
      ts <-! member_tokens f (Z.to_nat tag) ps pk c ;;
      Some (int_token (match pk with Some path => Some (O :: path) | None => None end) (IVar VarSize) tag :: ts)
  | _, _ => None
  end.
End Tokens.

Fixpoint object_tokens (s : schema) (depth : nat) (pk : option key) (v : value) : option (list token) :=
  match depth with
  | O => None
  | S n => id <-! obj_id v ;; d <-! s id ;; decl_tokens (object_tokens s n) d pk v
  end.

(** The encoding of an object at a bit position *)
Definition encoding (s : schema) (depth : nat) (v : value) (p : nat) : option (list bool) :=
  ts <-! object_tokens s depth None v ;; layout p ts.

(** ** What the theorems ask of objects and schemas: bytes are bytes, floats are bit patterns, alignments are not negative. *)
Fixpoint values_ok (v : value) : Prop :=
  match v with
  | VFloat d => 0 <= d < 2 ^ 64
  | VBytes l => Forall is_byte l
  | VBits b => wf_bitbuffer b
  | VArray l => (fix all l := match l with [] => True | v :: l => values_ok v /\ all l end) l
  | VStruct _ _ vs _ => (fix all l := match l with [] => True | v :: l => values_ok v /\ all l end) vs
  | VChoice _ _ c | VUnion _ _ _ c => values_ok c
  | _ => True
  end.
Definition alignments_ok (s : schema) : Prop :=
  forall id d, s id = Some d ->
    match d with
    | DStruct fs | DUnion fs => Forall (fun f => forall a, f_align f = Some a -> 0 <= a) fs
    | DChoice _ cases default =>
        Forall (fun c => forall f a, snd c = Some f -> f_align f = Some a -> 0 <= a) cases /\
        forall f a, default = Some (Some f) -> f_align f = Some a -> 0 <= a
    end.

(** A packable field has an integral type, an enum, a bitmask or a compound (Field.java:224-240). *)
Definition packs (ty : ftype) : bool := match ty with TInt _ | TDyn _ _ | TEnum _ _ | TMask _ | TObj _ _ => true | _ => false end.
Definition packable_ok (s : schema) : Prop := forall id d, s id = Some d -> decl_fields (fun f => f_packable f = true -> packs (f_ty f) = true) d.
