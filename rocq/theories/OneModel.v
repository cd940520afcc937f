(** src/one_input.cpp, one_input_impl.h, operation_traits.h, simd/avx2.h: an operation on every item of one array, several items at a time where the
    processor can. The library holds it besides UnaryOps.cpp (UnaryModel.v).
    The bytes of the input and of the output are two lists: they do not overlap. Simplified: NaN has the bytes of the default NaN; a processor without
    AVX512; Linux type numbers. Not modelled: the counts of references. The functions of the C library other than those of UnaryModel.v are a parameter.
    No proofs in this file. *)
From Coq Require Import SpecFloat.
From Verif Require Import RedModel.
From Verif Require Import Base Mem Par ConvModel TwoModel CmpModel MathModel UnaryModel.
From Verif Require Import LayoutModel.
From Verif Require Import StackModel.
Local Open Scope Z_scope.

(* operation_traits.h:53-212 *)
Inductive lib_op := Log | Log2 | Log10 | Exp | Exp2 | Cbrt | Tan | Cos | Sin.
Inductive op := abs_op | fabs_op | sign_op | floatsign_op | neg_op | bitwise_not_op | not_op | isnotnan_op | isnan_op | isfinite_op | isnotfinite_op
  | isinf_op | isnotinf_op | isnormal_op | isnotnormal_op | isnanorzero_op | round_op | floor_op | trunc_op | ceil_op | sqrt_op | lib (l : lib_op) | signbit_op.
Definition value_return (o : op) : bool :=
  match o with
  | not_op | isnotnan_op | isnan_op | isfinite_op | isnotfinite_op | isinf_op | isnotinf_op | isnormal_op | isnotnormal_op | isnanorzero_op => false
  | _ => true
  end.
Definition simd_implementation (o : op) : bool :=
  match o with abs_op | isnotnan_op | isnan_op | round_op | floor_op | trunc_op | ceil_op | sqrt_op | lib _ => true | _ => false end.
Definition clib := lib_op -> dtype -> spec_float -> spec_float.

(** ** One item *)

(* std::numeric_limits<bitmask_t>::max() or 0 *)
Definition mask (t : dtype) (b : bool) : list Z := repeat (if b then 255 else 0) (Z.to_nat (size t)).
(* T(z): computed as int for narrow types; None: the overflow is undefined *)
Definition c_int (t : dtype) (z : Z) : option (list Z) :=
  if (bits t <? 32) || ((lo t <=? z) && (z <=? hi t)) then Some (enc t (VI (wrapT t z))) else None.
(* one_input_impl.h:137-266: floats in their type; integers through double, None: outside of the integers *)
Definition through (t : dtype) (f : dtype -> spec_float -> spec_float) (v : val) : option (list Z) :=
  match v with
  | VI z => option_map (enc t) (cast t (VF (f F64 (dbl z))))
  | VF x => Some (enc t (VF (f t x)))
  end.
Definition whole (t : dtype) (i : Z -> option (list Z)) (f : spec_float -> spec_float) (v : val) : option (list Z) :=
  match v with VI z => i z | VF x => Some (enc t (VF (f x))) end.
Definition test (t : dtype) (i : Z -> bool) (f : spec_float -> bool) (v : val) : option (list Z) :=
  Some (mask t (match v with VI z => i z | VF x => f x end)).
(* one_input_impl.h:24-565 calculate, without registers: the bytes of the result for the bytes of the item *)
Definition calculate (c : clib) (o : op) (t : dtype) (x : list Z) : option (list Z) :=
  let v := dec t x in
  let same := fun _ : Z => Some (enc t v) in
  match o with
  | abs_op => whole t (if is_signed t then fun z => c_int t (Z.abs z) else same) SFabs v
  | fabs_op => whole t same ABS_F v
  | sign_op => whole t (fun z => Some (enc t (VI (SIGN_Z z)))) (fun f => if SFltb fz f then f1 t false else if SFltb f fz then f1 t true else fz) v
  | floatsign_op => whole t (fun _ => Some (enc t (VI 0))) (SIGN_F t) v
  | neg_op => whole t (if is_signed t then fun z => c_int t (- z) else same) SFopp v
  | bitwise_not_op => whole t (fun z => Some (enc t (VI (wrapT t (Z.lnot z))))) (fun _ => S754_nan) v
  | round_op => through t ROUND_OP v
  | floor_op => through t FLOOR_OP v
  | trunc_op => through t TRUNC_OP v
  | ceil_op => through t CEIL_OP v
  | sqrt_op => through t SQRT_OP v
  | lib l => through t (c l) v
  | signbit_op => Some (mask t ((is_signed t || is_float t) && Z.odd (unle x / 2 ^ (bits t - 1))))
  | not_op => test t (fun z => z =? 0) fzero v
  | isnotnan_op => test t (fun _ => false) (fun f => negb (isnan f)) v
  | isnan_op => test t (fun _ => false) isnan v
  | isfinite_op => test t (fun _ => false) isfinite v
  | isnotfinite_op => test t (fun _ => false) (fun f => negb (isfinite f)) v
  | isinf_op => test t (fun _ => false) isinf v
  | isnotinf_op => test t (fun _ => false) (fun f => negb (isinf f)) v
  | isnormal_op => test t (fun _ => false) (isnormal t) v
  | isnotnormal_op => test t (fun _ => false) (fun f => negb (isnormal t f)) v
  | isnanorzero_op => test t (fun z => z =? 0) (fun f => fzero f || isnan f) v
  end.

(** ** Registers of 32 bytes *)

Fixpoint chunks (count n : nat) (l : list Z) : list (list Z) :=
  match count with O => [] | S c => firstn n l :: chunks c n (skipn n l) end.
Definition lanes (t : dtype) : Z := 32 / size t.
Definition each_lane (t : dtype) (f : val -> list Z) (x : list Z) : list Z :=
  concat (map (fun y => f (dec t y)) (chunks (Z.to_nat (lanes t)) (Z.to_nat (size t)) x)).
(* simd/avx2.h:214-229, 1078-1093, 1979-1982, 2943-2953 and 3325-3340 (without AVX512 only the sign bit is cleared), 3766-3770, 4597-4601: abs;
   4131-4145, 4961-4975: isnan, isnotnan; 3828-3831, 3889-3892, 4351-4354, 4373-4376, 4469-4472, 4658-4661, 4719-4722, 5207-5210, 5229-5232, 5325-5328;
   None: calculate gives one item although it could use registers *)
Definition wide (o : op) (t : dtype) : option (list Z -> list Z) :=
  let floats (f : spec_float -> spec_float) := match t with F32 | F64 => Some (each_lane t (fun v => enc t (VF (f (as_f v))))) | _ => None end in
  let masks (f : spec_float -> bool) := match t with F32 | F64 => Some (each_lane t (fun v => mask t (f (as_f v)))) | _ => None end in
  match o with
  | abs_op =>
      match t with
      | I8 | I16 | I32 => Some (each_lane t (fun v => enc t (VI (wrapT t (Z.abs (as_z v))))))
      | I64 => Some (each_lane t (fun v => enc t (VI (as_z v mod 2 ^ 63))))
      | _ => floats SFabs
      end
  | round_op => floats (to_integer t n_even)
  | floor_op => floats (FLOOR_OP t)
  | trunc_op => floats (TRUNC_OP t)
  | ceil_op => floats (CEIL_OP t)
  | sqrt_op => floats (SQRT_OP t)
  | isnan_op => masks isnan
  | isnotnan_op => masks (fun f => negb (isnan f))
  | _ => None
  end.

(** ** The loop *)

(* one_input_impl.h:567-610 perform_operation and 611-635: the output afterwards and how many items were done; None: memory outside of the arrays, or a
   result that is not defined *)
Definition perform_operation (c : clib) (o : op) (t : dtype) (im om : list Z) (ip oup start stride contig : Z) : option (list Z * Z) :=
  let single :=
    match load ip (size t) im with
    | Some x => match calculate c o t x with Some y => match store oup y om with Some om' => Some (om', 1) | None => None end | None => None end
    | None => None
    end in
  if simd_implementation o && (stride =? size t) && (lanes t + start <? contig) then
    match wide o t with
    | Some v => match load ip 32 im with
                | Some x => match store oup (v x) om with Some om' => Some (om', lanes t) | None => None end
                | None => None
                end
    | None => single
    end
  else single.

(* operation_traits.h:37-51: the types of the loop, and the texts that array_content_t has besides *)
Inductive content := Number (t : dtype) | Text.
Inductive walked := Finished (om : list Z) | Running | Outside.
(* one_input_impl.h:643-654 walk_data_array; [Running]: [fuel] rounds are not enough. A text is none of the types that are tried *)
Fixpoint walk_from (fuel : nat) (c : clib) (o : op) (k : content) (inner outer stride stride_out : Z) (im : list Z) (ib : Z) (om : list Z) (ob offset : Z) : walked :=
  match fuel with
  | O => Running
  | S fuel' =>
      if outer <=? offset then Finished om
      else
        match k with
        | Text => walk_from fuel' c o k inner outer stride stride_out im ib om ob offset
        | Number t =>
            match perform_operation c o t im om (ib + offset * stride) (ob + offset * inner * stride_out) offset stride outer with
            | Some (om', n) => walk_from fuel' c o k inner outer stride stride_out im ib om' ob (offset + n)
            | None => Outside
            end
        end
  end.
Definition walk_data_array (c : clib) (o : op) (k : content) (inner outer stride stride_out : Z) (im : list Z) (ib : Z) (om : list Z) (ob : Z) : walked :=
  walk_from (S (Z.to_nat outer)) c o k inner outer stride stride_out im ib om ob 0.

(* an array: shape, address of the first item, memory *)
Record arr := Arr { a_lay : layout; a_base : Z; a_mem : list Z }.
Definition dim (l : layout) (i : nat) : Z := Z.of_nat (nth i (dims l) 0%nat).
(* one_input_impl.h:656-670 *)
Definition walk_row_major (c : clib) (o : op) (k : content) (a : arr) (stride_out : Z) (om : list Z) (ob : Z) : walked :=
  walk_data_array c o k (Z.of_nat (prod (tl (dims (a_lay a))))) (dim (a_lay a) 0) (nth 0 (strides (a_lay a)) 0) stride_out (a_mem a) (a_base a) om ob.
(* one_input_impl.h:672-693: the length of the last dimension is taken for its stride *)
Definition walk_column_major (c : clib) (o : op) (k : content) (a : arr) (stride_out : Z) (om : list Z) (ob : Z) : walked :=
  let n := (length (dims (a_lay a)) - 1)%nat in
  walk_data_array c o k (dim (a_lay a) 0 * dim (a_lay a) 1) (dim (a_lay a) n) (dim (a_lay a) n) stride_out (a_mem a) (a_base a) om ob.

(** ** process_one_input *)

(* one_input.cpp:114-171 get_type_trait; None: an exception of C++ *)
Definition get_type_trait (n : Z) : option content :=
  if n =? 1 then Some (Number I8) else if n =? 3 then Some (Number I16) else if n =? 5 then Some (Number I32) else if (n =? 7) || (n =? 9) then Some (Number I64)
  else if n =? 2 then Some (Number U8) else if n =? 4 then Some (Number U16) else if n =? 6 then Some (Number U32) else if (n =? 8) || (n =? 10) then Some (Number U64)
  else if n =? 11 then Some (Number F32) else if n =? 12 then Some (Number F64) else if (n =? 18) || (n =? 19) then Some Text else None.
(* one_input.cpp:173-216 get_op_trait *)
Definition get_op_trait (u : uop) : option op :=
  match u with
  | ABS => Some abs_op | ISNAN => Some isnan_op | ISNOTNAN => Some isnotnan_op | ISFINITE => Some isfinite_op | ISNOTFINITE => Some isnotfinite_op
  | NEG => Some bitwise_not_op | INVERT => Some bitwise_not_op | FLOOR => Some floor_op | CEIL => Some ceil_op | TRUNC => Some trunc_op
  | ROUND => Some round_op | SQRT => Some sqrt_op | _ => None
  end.
(* the size of an item of a new array *)
Definition item_of (k : content) (o : op) (isize : Z) : Z := if value_return o then (match k with Number t => size t | Text => isize end) else 1.
(* RipTide.cpp:597-711 AllocateNumpyArray, 790-845 AllocateLikeNumpyArray. Simplified: the order of the dimensions of an array that is not contiguous *)
Definition fresh (l : layout) (junk : nat -> Z) : arr := Arr l 0 (map junk (seq 0 (prod (dims l) * Z.to_nat (isz l)))).
Definition new_like (a : arr) (item : Z) (junk : nat -> Z) : arr :=
  fresh (new_array (f_flag (isz (a_lay a)) (dims (a_lay a)) (strides (a_lay a))) (dims (a_lay a)) item) junk.

(* NewArray: a new array is returned. NoneFor m: None is returned; [m]: the memory of the result, which is the given array's or lost.
   Throws: an exception of C++ leaves a C function *)
Inductive outcome := NewArray (a : arr) | NoneFor (m : option (list Z)) | Throws | Forever | Undefined.
Definition ended (w : walked) (f : list Z -> outcome) : outcome := match w with Finished m => f m | Running => Forever | Outside => Undefined end.
(* one_input.cpp:18-110; [intype]: the type of the array; [out]: the given array and numpy_outtype, None: -1 *)
Definition process_one_input (c : clib) (junk : nat -> Z) (u : uop) (intype : Z) (a : arr) (out : option (arr * Z)) : outcome :=
  let n := length (dims (a_lay a)) in
  let len := Z.of_nat (prod (dims (a_lay a))) in
  let '(direction, stride) := GetStridesAndContig (a_lay a) in
  match get_op_trait u, get_type_trait intype with
  | Some o, Some k =>
      let item := item_of k o (isz (a_lay a)) in
      match direction =? 0, out with
      | true, None =>
          let r := if (n <=? 1)%nat then fresh (new_array false [prod (dims (a_lay a))] item) junk else new_like a item junk in
          ended (walk_data_array c o k 1 len stride stride (a_mem a) (a_base a) (a_mem r) (a_base r)) (fun m => NewArray (Arr (a_lay r) (a_base r) m))
      | _, _ =>
          let wanted := if value_return o then intype else 0 in
          match (match out with
                 | None => Some (new_like a item junk)
                 | Some (r, outtype) => if negb (outtype =? wanted) then None else if negb (Z.of_nat (prod (dims (a_lay r))) =? len) then None else Some r
                 end) with
          | None => NoneFor None
          | Some r =>
              let '(direction_out, stride_out) := GetStridesAndContig (a_lay r) in
              if negb (direction_out =? 0) then NoneFor (Some (a_mem r))
              else if direction =? 0 then
                ended (walk_data_array c o k (Z.of_nat n) len stride stride_out (a_mem a) (a_base a) (a_mem r) (a_base r)) (fun m => NoneFor (Some m))
              else if direction =? 1 then ended (walk_row_major c o k a stride_out (a_mem r) (a_base r)) (fun m => NoneFor (Some m))
              else if direction =? -1 then ended (walk_column_major c o k a stride_out (a_mem r) (a_base r)) (fun m => NoneFor (Some m))
              else NoneFor (Some (a_mem r))
          end
      end
  | _, _ => Throws
  end.
