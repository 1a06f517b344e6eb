(** Model of rt/array.py: Array (38-449), DeltaContext (452-624),
    PackedArrayTraits (627-708) and the element traits of the built-in types
    (799-1989).  Not modelled: __len__/__getitem__/__setitem__/raw_array (153-171,
    plain list access) and what an Array object holds after a read that raised. *)
From Verif Require Import Base SpecStream ModelFloat ModelUtf8 ModelBitBuffer ModelBuiltin ModelBitsizeof ModelWriter ModelReader ModelCalls.

(** [for i in range(i, i+n): acc.append(f(i))] *)
Fixpoint collect_from {S A} (n : nat) (i : Z) (f : Z -> M S A) : M S (list A) :=
  match n with
  | O => ret []
  | S k => a <- f i ;; l <- collect_from k (i + 1) f ;; ret (a :: l)
  end.

(** [for index in range(len(l)): f(index, l[index])], starting at [i] *)
Fixpoint for_each_from {S A} (i : Z) (f : Z -> A -> M S unit) (l : list A) : M S unit :=
  match l with
  | [] => ret tt
  | a :: l' => f i a ;;; for_each_from (i + 1) f l'
  end.

(** ** Element traits: the methods every *ArrayTraits class provides.
    [tr_const] is HAS_BITSIZEOF_CONSTANT together with bitsizeof(); the bit
    position resp. index argument is ignored by traits without
    NEEDS_BITSIZEOF_POSITION resp. NEEDS_READ_INDEX.  [tr_init] returns the
    element with its offsets set and the new bit position. *)
Record traits (E : Type) := {
  tr_const : option Z;
  tr_bitsizeof : Z -> E -> res Z;
  tr_init : Z -> E -> res (E * Z);
  tr_read : Z -> M reader E;
  tr_write : E -> M writer unit
}.
Arguments tr_const {E}.
Arguments tr_bitsizeof {E}.
Arguments tr_init {E}.
Arguments tr_read {E}.
Arguments tr_write {E}.

Section Array.
Context {E : Type} (t : traits E).

(** rt/array.py:181-186, 222-227, 253-258, 279-284: position after the length *)
Definition after_length (is_auto : bool) (size bitposition : Z) : res Z :=
  if is_auto then n <-? bitsizeof_varsize size ;; Ok (bitposition + n) else Ok bitposition.

(** rt/array.py:194-210 *)
Fixpoint sum_bitsizeof (offsets : bool) (end_bitposition : Z) (l : list E) : res Z :=
  match l with
  | [] => Ok end_bitposition
  | e :: l' =>
      let p := if offsets then alignto 8 end_bitposition else end_bitposition in
      n <-? tr_bitsizeof t p e ;; sum_bitsizeof offsets (p + n) l'
  end.

(** rt/array.py:173-212; [offsets]: set_offset_method is given *)
Definition array_bitsizeof (is_auto offsets : bool) (l : list E) (bitposition : Z) : res Z :=
  let size := zlen l in
  end0 <-? after_length is_auto size bitposition ;;
  end1 <-? match tr_const t with
           | Some element_size =>
               if 0 <? size then
                 if offsets
                 then Ok (alignto 8 end0 + (element_size + (size - 1) * alignto 8 element_size))
                 else Ok (end0 + size * element_size)
               else sum_bitsizeof offsets end0 l
           | None => sum_bitsizeof offsets end0 l
           end ;;
  Ok (end1 - bitposition).

(** rt/array.py:258-269; the owner's state [O] is changed by set_offset_method *)
Fixpoint init_loop {O} (set_offset : option (Z -> Z -> M O unit)) (index end_bitposition : Z) (l : list E)
  : M O (list E * Z) :=
  match l with
  | [] => ret ([], end_bitposition)
  | e :: l' =>
      p <- match set_offset with
           | Some set => let p := alignto 8 end_bitposition in set index p ;;; ret p
           | None => ret end_bitposition
           end ;;
      x <- lift (tr_init t p e) ;;
      y <- init_loop set_offset (index + 1) (snd x) l' ;;
      ret (fst x :: fst y, snd y)
  end.

(** rt/array.py:245-269 *)
Definition array_initialize_offsets {O} (is_auto : bool) (set_offset : option (Z -> Z -> M O unit)) (l : list E)
  (bitposition : Z) : M O (list E * Z) :=
  end0 <- lift (after_length is_auto (zlen l) bitposition) ;;
  init_loop set_offset 0 end0 l.

(** Length modes: is_auto, is_implicit, or a length given by the owner. *)
Inductive length_mode := LAuto | LImplicit | LFixed (size : Z).

(** rt/array.py:334-352: one step of the reading loop *)
Definition read_element (check_offset : option (Z -> Z -> res unit)) (index : Z) : M reader E :=
  match check_offset with
  | Some check =>
      reader_alignto 8 ;;;
      p <- gets r_pos ;;
      lift (check index p) ;;;
      tr_read t index
  | None => tr_read t index
  end.

(** rt/array.py:306-360 *)
Definition array_read (mode : length_mode) (check_offset : option (Z -> Z -> res unit)) : M reader (list E) :=
  match mode with
  | LImplicit =>
      match tr_const t with
      | None => throw RuntimeExc
      | Some element_size =>
          remaining_bits <- gets (fun r => r_bitsize r - r_pos r) ;;
          if element_size =? 0 then throw ZeroDivErr
          else collect_from (Z.to_nat (remaining_bits / element_size)) 0 (tr_read t)
      end
  | _ =>
      read_size <- match mode with LFixed size => ret size | _ => read_varsize end ;;
      match tr_const t with
      | Some element_size =>
          beyond <- gets (fun r => r_bitsize r <? r_pos r + read_size * element_size) ;;
          if beyond then throw RuntimeExc else ret tt
      | None => ret tt
      end ;;;
      collect_from (Z.to_nat read_size) 0 (read_element check_offset)
  end.

(** rt/array.py:409-414 *)
Definition write_element (check_offset : option (Z -> Z -> res unit)) (index : Z) (e : E) : M writer unit :=
  match check_offset with
  | Some check =>
      writer_alignto 8 ;;;
      p <- gets w_pos ;;
      lift (check index p) ;;;
      tr_write t e
  | None => tr_write t e
  end.

(** rt/array.py:397-418 *)
Definition array_write (is_auto : bool) (check_offset : option (Z -> Z -> res unit)) (l : list E) : M writer unit :=
  (if is_auto then write_varsize (zlen l) else ret tt) ;;;
  for_each_from 0 (write_element check_offset) l.

End Array.

(** ** Packed arrays *)
(** The methods of PackedArrayTraits/ObjectPackedArrayTraits; the packing
    context is threaded through as a value. *)
Record packed_traits (C E : Type) := {
  pt_create : C;
  pt_init : C -> E -> res C;
  pt_bitsizeof : C -> Z -> E -> res (Z * C);
  pt_init_offsets : C -> Z -> E -> res (E * Z * C);
  pt_read : C -> Z -> M reader (E * C);
  pt_write : C -> E -> M writer C
}.
Arguments pt_create {C E}.
Arguments pt_init {C E}.
Arguments pt_bitsizeof {C E}.
Arguments pt_init_offsets {C E}.
Arguments pt_read {C E}.
Arguments pt_write {C E}.

Section Packed.
Context {C E : Type} (t : packed_traits C E).

(** rt/array.py:233-234, 290-291, 435-436 *)
Fixpoint init_contexts (c : C) (l : list E) : res C :=
  match l with
  | [] => Ok c
  | e :: l' => c' <-? pt_init t c e ;; init_contexts c' l'
  end.

(** rt/array.py:236-241 *)
Fixpoint sum_bitsizeof_packed (offsets : bool) (c : C) (end_bitposition : Z) (l : list E) : res Z :=
  match l with
  | [] => Ok end_bitposition
  | e :: l' =>
      let p := if offsets then alignto 8 end_bitposition else end_bitposition in
      x <-? pt_bitsizeof t c p e ;; sum_bitsizeof_packed offsets (snd x) (p + fst x) l'
  end.

(** rt/array.py:214-243 *)
Definition array_bitsizeof_packed (is_auto offsets : bool) (l : list E) (bitposition : Z) : res Z :=
  end0 <-? after_length is_auto (zlen l) bitposition ;;
  end1 <-? (if 0 <? zlen l then c <-? init_contexts (pt_create t) l ;; sum_bitsizeof_packed offsets c end0 l
            else Ok end0) ;;
  Ok (end1 - bitposition).

(** rt/array.py:293-303 *)
Fixpoint init_loop_packed {O} (set_offset : option (Z -> Z -> M O unit)) (c : C) (index end_bitposition : Z)
  (l : list E) : M O (list E * Z) :=
  match l with
  | [] => ret ([], end_bitposition)
  | e :: l' =>
      p <- match set_offset with
           | Some set => let p := alignto 8 end_bitposition in set index p ;;; ret p
           | None => ret end_bitposition
           end ;;
      x <- lift (pt_init_offsets t c p e) ;;
      y <- init_loop_packed set_offset (snd x) (index + 1) (snd (fst x)) l' ;;
      ret (fst (fst x) :: fst y, snd y)
  end.

(** rt/array.py:271-304 *)
Definition array_initialize_offsets_packed {O} (is_auto : bool) (set_offset : option (Z -> Z -> M O unit)) (l : list E)
  (bitposition : Z) : M O (list E * Z) :=
  end0 <- lift (after_length is_auto (zlen l) bitposition) ;;
  if 0 <? zlen l then c <- lift (init_contexts (pt_create t) l) ;; init_loop_packed set_offset c 0 end0 l
  else ret ([], end0).

(** rt/array.py:384-395 *)
Fixpoint read_loop_packed (check_offset : option (Z -> Z -> res unit)) (c : C) (n : nat) (index : Z)
  : M reader (list E) :=
  match n with
  | O => ret []
  | S k =>
      match check_offset with
      | Some check => reader_alignto 8 ;;; p <- gets r_pos ;; lift (check index p)
      | None => ret tt
      end ;;;
      x <- pt_read t c index ;;
      l <- read_loop_packed check_offset (snd x) k (index + 1) ;;
      ret (fst x :: l)
  end.

(** rt/array.py:362-395 *)
Definition array_read_packed (mode : length_mode) (check_offset : option (Z -> Z -> res unit)) : M reader (list E) :=
  match mode with
  | LImplicit => throw RuntimeExc
  | _ =>
      read_size <- match mode with LFixed size => ret size | _ => read_varsize end ;;
      if 0 <? read_size then read_loop_packed check_offset (pt_create t) (Z.to_nat read_size) 0 else ret []
  end.

(** rt/array.py:438-449 *)
Fixpoint write_loop_packed (check_offset : option (Z -> Z -> res unit)) (c : C) (index : Z) (l : list E)
  : M writer unit :=
  match l with
  | [] => ret tt
  | e :: l' =>
      match check_offset with
      | Some check => writer_alignto 8 ;;; p <- gets w_pos ;; lift (check index p)
      | None => ret tt
      end ;;;
      c' <- pt_write t c e ;;
      write_loop_packed check_offset c' (index + 1) l'
  end.

(** rt/array.py:420-449 *)
Definition array_write_packed (is_auto : bool) (check_offset : option (Z -> Z -> res unit)) (l : list E)
  : M writer unit :=
  (if is_auto then write_varsize (zlen l) else ret tt) ;;;
  if 0 <? zlen l then c <- lift (init_contexts (pt_create t) l) ;; write_loop_packed check_offset c 0 l
  else ret tt.

End Packed.

(** ** DeltaContext, rt/array.py:452-624 *)
Record delta_context := {
  dc_packed : bool;
  dc_max : Z;
  dc_prev : option Z;
  dc_started : bool;
  dc_unpacked : Z;
  dc_first : Z;
  dc_num : Z
}.

(** rt/array.py:471-480 *)
Definition new_delta_context : delta_context :=
  {| dc_packed := false; dc_max := 0; dc_prev := None; dc_started := false; dc_unpacked := 0; dc_first := 0; dc_num := 0 |}.

(** rt/array.py:623-624 *)
Definition MAX_BIT_NUMBER_BITS := 6.
Definition MAX_BIT_NUMBER_LIMIT := 62.

Section Delta.
Context (t : traits Z).

(** rt/array.py:597-602 *)
Definition bitsizeof_unpacked (element : Z) : res Z :=
  match tr_const t with Some n => Ok n | None => tr_bitsizeof t 0 element end.

(** rt/array.py:482-510 *)
Definition dc_init (c : delta_context) (element : Z) : res delta_context :=
  n <-? bitsizeof_unpacked element ;;
  let unpacked := dc_unpacked c + n in
  match dc_prev c with
  | None =>
      Ok {| dc_packed := dc_packed c; dc_max := dc_max c; dc_prev := Some element; dc_started := dc_started c;
            dc_unpacked := unpacked; dc_first := unpacked; dc_num := dc_num c + 1 |}
  | Some prev =>
      if dc_max c <=? MAX_BIT_NUMBER_LIMIT then
        let max_bit_number := bit_length (element - prev) in
        let bigger := dc_max c <? max_bit_number in
        Ok {| dc_packed := negb (bigger && (MAX_BIT_NUMBER_LIMIT <? max_bit_number));
              dc_max := if bigger then max_bit_number else dc_max c;
              dc_prev := Some element; dc_started := dc_started c;
              dc_unpacked := unpacked; dc_first := dc_first c; dc_num := dc_num c + 1 |}
      else
        Ok {| dc_packed := dc_packed c; dc_max := dc_max c; dc_prev := dc_prev c; dc_started := dc_started c;
              dc_unpacked := unpacked; dc_first := dc_first c; dc_num := dc_num c + 1 |}
  end.

(** rt/array.py:530, 580: number of bits of a delta *)
Definition delta_bitsize (c : delta_context) : Z := if 0 <? dc_max c then dc_max c + 1 else 0.

(** rt/array.py:578-589, with processing_started set *)
Definition dc_finish_init (c : delta_context) : delta_context :=
  let packed :=
    dc_packed c &&
    negb (1 + dc_unpacked c <=?
          1 + MAX_BIT_NUMBER_BITS + dc_first c + (dc_num c - 1) * delta_bitsize c) in
  {| dc_packed := packed; dc_max := dc_max c; dc_prev := dc_prev c; dc_started := true;
     dc_unpacked := dc_unpacked c; dc_first := dc_first c; dc_num := dc_num c |}.

(** rt/array.py:591-595 *)
Definition bitsizeof_descriptor (c : delta_context) : Z := if dc_packed c then 1 + MAX_BIT_NUMBER_BITS else 1.

(** rt/array.py:512-530 *)
Definition dc_bitsizeof (c : delta_context) (element : Z) : res (Z * delta_context) :=
  if negb (dc_started c) then
    let c := dc_finish_init c in
    n <-? bitsizeof_unpacked element ;; Ok (bitsizeof_descriptor c + n, c)
  else if negb (dc_packed c) then n <-? bitsizeof_unpacked element ;; Ok (n, c)
  else Ok (delta_bitsize c, c).

Definition set_prev (e : Z) (c : delta_context) : delta_context :=
  {| dc_packed := dc_packed c; dc_max := dc_max c; dc_prev := Some e; dc_started := dc_started c;
     dc_unpacked := dc_unpacked c; dc_first := dc_first c; dc_num := dc_num c |}.

(** rt/array.py:604-607 with 540-542 *)
Definition dc_read_descriptor (c : delta_context) : M reader delta_context :=
  packed <- read_bool ;;
  m <- (if packed then read_bits_unchecked MAX_BIT_NUMBER_BITS else ret (dc_max c)) ;;
  ret {| dc_packed := packed; dc_max := m; dc_prev := dc_prev c; dc_started := true;
         dc_unpacked := dc_unpacked c; dc_first := dc_first c; dc_num := dc_num c |}.

(** rt/array.py:609-612 *)
Definition dc_read_unpacked (c : delta_context) : M reader (Z * delta_context) :=
  element <- tr_read t 0 ;; ret (element, set_prev element c).

(** rt/array.py:532-552 *)
Definition dc_read (c : delta_context) : M reader (Z * delta_context) :=
  if negb (dc_started c) then c' <- dc_read_descriptor c ;; dc_read_unpacked c'
  else if negb (dc_packed c) then dc_read_unpacked c
  else
    match dc_prev c with
    | None => throw AssertErr
    | Some prev =>
        if 0 <? dc_max c then
          delta <- read_signed_bits_unchecked (dc_max c + 1) ;;
          ret (prev + delta, set_prev (prev + delta) c)
        else ret (prev, c)
    end.

(** rt/array.py:614-617 *)
Definition dc_write_descriptor (c : delta_context) : M writer unit :=
  write_bool (dc_packed c) ;;;
  if dc_packed c then write_bits_unchecked (dc_max c) MAX_BIT_NUMBER_BITS else ret tt.

(** rt/array.py:554-576, 619-621 *)
Definition dc_write (c : delta_context) (element : Z) : M writer delta_context :=
  if negb (dc_started c) then
    let c := dc_finish_init c in
    dc_write_descriptor c ;;; tr_write t element ;;; ret (set_prev element c)
  else if negb (dc_packed c) then tr_write t element ;;; ret (set_prev element c)
  else
    match dc_prev c with
    | None => throw AssertErr
    | Some prev =>
        if 0 <? dc_max c then
          write_signed_bits_unchecked (element - prev) (dc_max c + 1) ;;; ret (set_prev element c)
        else ret c
    end.

(** PackedArrayTraits, rt/array.py:627-708 *)
Definition delta_traits : packed_traits delta_context Z := {|
  pt_create := new_delta_context;
  pt_init := dc_init;
  pt_bitsizeof := fun c _ e => dc_bitsizeof c e;
  pt_init_offsets := fun c p e => x <-? dc_bitsizeof c e ;; Ok (e, p + fst x, snd x);
  pt_read := fun c _ => dc_read c;
  pt_write := dc_write
|}.
End Delta.

(** ** Traits of the built-in types *)
(** [initialize_offsets] of every built-in trait returns bitposition + bitsizeof. *)
Definition plain_traits {E} (const : option Z) (size : E -> res Z) (rd : M reader E) (wr : E -> M writer unit) : traits E := {|
  tr_const := const;
  tr_bitsizeof := fun _ e => size e;
  tr_init := fun p e => n <-? size e ;; Ok (e, p + n);
  tr_read := fun _ => rd;
  tr_write := wr
|}.

(** Integer types: rt/array.py:799-866, 869-936, 939-1530; only these are packable,
    the packed_traits of the other built-in types is None (1550, 1615, ...) *)
Inductive ikind := IBits (n : Z) | ISigned (n : Z) | IVar (t : vtype).

Definition int_traits (k : ikind) : traits Z :=
  match k with
  | IBits n => plain_traits (Some n) (fun _ => Ok n) (read_bits n) (fun v => write_bits v n)
  | ISigned n => plain_traits (Some n) (fun _ => Ok n) (read_signed_bits n) (fun v => write_signed_bits v n)
  | IVar t => plain_traits None (vt_bitsizeof t) (vt_read t) (vt_write t)
  end.

(** rt/array.py:1532-1725 *)
Definition float16_traits : traits Z := plain_traits (Some 16) (fun _ => Ok 16) read_float16 write_float16.
Definition float32_traits : traits Z := plain_traits (Some 32) (fun _ => Ok 32) read_float32 write_float32.
Definition float64_traits : traits Z := plain_traits (Some 64) (fun _ => Ok 64) read_float64 write_float64.
(** rt/array.py:1727-1791 *)
Definition bytes_traits : traits (list Z) := plain_traits None bitsizeof_bytes read_bytes write_bytes.
(** rt/array.py:1793-1857 *)
Definition string_traits : traits (list Z) := plain_traits None bitsizeof_string read_string write_string.
(** rt/array.py:1859-1922 *)
Definition bool_traits : traits bool := plain_traits (Some 1) (fun _ => Ok 1) read_bool write_bool.
(** rt/array.py:1924-1987 *)
Definition bitbuffer_traits : traits bitbuffer := plain_traits None bitsizeof_bitbuffer read_bitbuffer write_bitbuffer.

(** Names for all of them *)
Inductive ekind := EInt (k : ikind) | EFloat16 | EFloat32 | EFloat64 | EBytes | EString | EBool | EBitBuffer.

Definition evalue (k : ekind) : Type :=
  match k with
  | EInt _ | EFloat16 | EFloat32 | EFloat64 => Z
  | EBytes | EString => list Z
  | EBool => bool
  | EBitBuffer => bitbuffer
  end.

Definition traits_of (k : ekind) : traits (evalue k) :=
  match k with
  | EInt i => int_traits i
  | EFloat16 => float16_traits | EFloat32 => float32_traits | EFloat64 => float64_traits
  | EBytes => bytes_traits | EString => string_traits | EBool => bool_traits | EBitBuffer => bitbuffer_traits
  end.

(** ** Generated offset methods for an indexed offset array field held by the owner,
    fm/CompoundField.inc.ftl:437-457 (define_offset_checker, define_offset_setter);
    the owner's state is the raw offset array *)
Fixpoint list_set (l : list Z) (i : nat) (v : Z) : list Z :=
  match l, i with
  | [], _ => []
  | _ :: l', O => v :: l'
  | x :: l', S k => x :: list_set l' k v
  end.

Definition offset_setter (index bitoffset : Z) : M (list Z) unit := fun offsets =>
  match bits_to_bytes bitoffset with
  | Raise e => (Raise e, offsets)
  | Ok value =>
      if (0 <=? index) && (index <? zlen offsets) then (Ok tt, list_set offsets (Z.to_nat index) value)
      else (Raise IndexErr, offsets)
  end.

Definition offset_checker (offsets : list Z) (index bitoffset : Z) : res unit :=
  o <-? Base.index offsets index ;;
  if bitoffset =? bytes_to_bits o then Ok tt else Raise RuntimeExc.
