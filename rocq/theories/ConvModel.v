(** src/Convert.cpp, src/missing_values.h: conversion of numbers between types, joining arrays of different types. No proofs in this file. *)
From Coq Require Import SpecFloat.
From Verif Require Import Base Mem Par.
Local Open Scope Z_scope.

(** ** Types and values *)

Inductive dtype := Bool | I8 | I16 | I32 | I64 | U8 | U16 | U32 | U64 | F32 | F64 | F80.
(* an item of an array: an integer (or 0, 1 for bool), or a floating point number *)
Inductive val := VI (z : Z) | VF (f : spec_float).

Definition is_float (t : dtype) : bool := match t with F32 | F64 | F80 => true | _ => false end.
Definition is_signed (t : dtype) : bool := match t with I8 | I16 | I32 | I64 => true | _ => false end.
Definition bits (t : dtype) : Z :=
  match t with Bool | I8 | U8 => 8 | I16 | U16 => 16 | I32 | U32 | F32 => 32 | I64 | U64 | F64 => 64 | F80 => 128 end.
(* the smallest and the largest integer of a type *)
Definition lo (t : dtype) : Z := if is_signed t then - 2 ^ (bits t - 1) else 0.
Definition hi (t : dtype) : Z :=
  match t with Bool => 1 | _ => if is_signed t then 2 ^ (bits t - 1) - 1 else 2 ^ bits t - 1 end.
(* IEEE binary32, binary64 and the 80-bit format of x87 *)
Definition prec (t : dtype) : Z := match t with F32 => 24 | F64 => 53 | _ => 64 end.
Definition emax (t : dtype) : Z := match t with F32 => 128 | F64 => 1024 | _ => 16384 end.

(** ** Casts of C++ *)

(* integer to integer: modulo 2^bits *)
Definition wrapT (t : dtype) (z : Z) : Z := if is_signed t then wrap (bits t) z else z mod 2 ^ bits t.
(* floating point to floating point: round to nearest, ties to even *)
Definition fconv (t : dtype) (f : spec_float) : spec_float :=
  match f with S754_finite s m e => binary_round (prec t) (emax t) s m e | _ => f end.
(* the integral part of a finite number *)
Definition ftrunc (f : spec_float) : option Z :=
  match f with
  | S754_zero _ => Some 0
  | S754_finite s m e =>
      let a := if 0 <=? e then Zpos m * 2 ^ e else Zpos m / 2 ^ (- e) in Some (if s then - a else a)
  | _ => None
  end.
Definition fzero (f : spec_float) : bool := match f with S754_zero _ => true | _ => false end.
Definition isfinite (f : spec_float) : bool := match f with S754_zero _ | S754_finite _ _ _ => true | _ => false end.
(* x != 0 *)
Definition nonzero (v : val) : bool := match v with VI z => negb (z =? 0) | VF f => negb (fzero f) end.
(* (U)x; [None]: undefined behaviour (a number outside the range of the integer type) *)
Definition cast (u : dtype) (v : val) : option val :=
  match u with
  | Bool => Some (VI (if nonzero v then 1 else 0))
  | F32 | F64 | F80 => Some (VF (match v with VI z => binary_normalize (prec u) (emax u) z 0 false | VF f => fconv u f end))
  | _ =>
      match v with
      | VI z => Some (VI (wrapT u z))
      | VF f => match ftrunc f with Some z => if (lo u <=? z) && (z <=? hi u) then Some (VI z) else None | None => None end
      end
  end.
(* a != b *)
Definition vneq (a b : val) : bool :=
  match a, b with VI x, VI y => negb (x =? y) | VF x, VF y => negb (SFeqb x y) | _, _ => true end.

(** ** Invalid values *)

(* missing_values.h:29-275 invalid_for_type<>::value; RipTide.cpp:2120-2177 GetDefaultForType *)
Definition GetDefaultForType (t : dtype) : val :=
  match t with
  | Bool => VI 0
  | I8 | I16 | I32 | I64 => VI (lo t)
  | U8 | U16 | U32 | U64 => VI (hi t)
  | F32 | F64 | F80 => VF S754_nan
  end.
(* Convert.cpp:1029-1038 *)
Definition GetInvalid (t : dtype) : val := match t with Bool => GetDefaultForType I8 | _ => GetDefaultForType t end.
(* missing_values.h:29-275 invalid_for_type<>::is_valid *)
Definition is_valid (t : dtype) (x : val) : bool :=
  match t with Bool => true | F32 | F64 | F80 => negb (vneq x x) | _ => vneq x (GetDefaultForType t) end.
(* missing_values.h:284-304 *)
Definition cast_nan_aware (t u : dtype) (x : val) : option val := if is_valid t x then cast u x else Some (GetDefaultForType u).

(** ** Conversion kernels, for one item *)

Inductive kernel := KCopy | KPlain | KSafe | KSafeFloat | KBool.
Definition run_kernel (k : kernel) (u : dtype) (badIn badOut x : val) : option val :=
  match k with
  | KCopy => Some x                                                   (* Convert.cpp:236-258 OneStubConvertSafeCopy *)
  | KPlain => cast u x                                                (* Convert.cpp:262-286 OneStubConvertUnsafe, 339-373, 375-399 *)
  | KSafe => if vneq x badIn then cast u x else Some badOut           (* Convert.cpp:292-335 OneStubConvertSafe *)
  | KSafeFloat => match x with                                        (* Convert.cpp:401-446 OneStubConvertSafeFloat *)
                  | VF f => if isfinite f && vneq x badIn then cast u x else Some badOut
                  | VI _ => None
                  end
  | KBool => Some (VI (if nonzero x then 1 else 0))                   (* Convert.cpp:448-476 OneStubConvertSafeBool *)
  end.

Scheme Equality for dtype.
(* Convert.cpp:543-576 GetConversionStep2Safe, 615-649 FromFloat, 651-685 FromDouble, 687-720 SafeFloat, 722-751 SafeCopy, 753-796 *)
Definition GetConversionFunctionSafe (t u : dtype) : kernel :=
  if dtype_beq t u then KCopy
  else match u with
       | Bool => KBool
       | _ => match t, u with
              | F32, F64 => KPlain
              | F64, F32 => KPlain
              | F32, _ | F64, _ | F80, _ => KSafeFloat
              | _, _ => KSafe
              end
       end.
(* Convert.cpp:580-613 GetConversionStep2Unsafe, 798-837 *)
Definition GetConversionFunctionUnsafe (t u : dtype) : kernel :=
  if dtype_beq t u then KCopy else match u with Bool => KBool | _ => KPlain end.

(* Convert.cpp:1050-1200 ConvertSafeInternal, one item *)
Definition convert_safe (t u : dtype) (x : val) : option val :=
  run_kernel (GetConversionFunctionSafe t u) u (GetInvalid t) (GetDefaultForType u) x.
(* Convert.cpp:1252-1328 ConvertUnsafeInternal, one item *)
Definition convert_unsafe (t u : dtype) (x : val) : option val :=
  run_kernel (GetConversionFunctionUnsafe t u) u (GetInvalid t) (GetDefaultForType u) x.
(* Convert.cpp:3276-3301 HomogenizeArrays, one item: the invalid value of bool is False here *)
Definition convert_homogenize (t u : dtype) (x : val) : option val :=
  if dtype_beq t u then Some x
  else run_kernel (GetConversionFunctionSafe t u) u (GetDefaultForType t) (GetDefaultForType u) x.

(** ** PutMask *)

Inductive mkernel := MFast | MCopy | MCopyBool | MCopyFloat.
(* Convert.cpp:839-977 *)
Definition GetConversionPutMask (t u : dtype) : mkernel :=
  if dtype_beq t u then MFast
  else match u with Bool => MCopyBool | _ => match t with F32 | F64 | F80 => MCopyFloat | _ => MCopy end end.
(* Convert.cpp:124-200: one item for which the mask is set *)
Definition run_mkernel (k : mkernel) (u : dtype) (badIn badOut x : val) : option val :=
  match k with
  | MFast => Some x
  | MCopy => if vneq x badIn then cast u x else Some badOut
  | MCopyBool => Some (VI (if nonzero x then 1 else 0))
  | MCopyFloat => if negb (vneq x x) then cast u x else Some badOut
  end.
Definition convert_putmask (t u : dtype) (x : val) : option val :=
  run_mkernel (GetConversionPutMask t u) u (GetDefaultForType t) (GetDefaultForType u) x.

(* Convert.cpp:124-200: one call for the rows [start, start+len); the loop counter is an int *)
Definition putmask_rows (t u : dtype) (mask : list bool) (vals : list val) (rows : list nat) : option (list (Z * val)) :=
  option_map (@concat _) (all_some (map (fun i =>
    match nth_error mask i with
    | None => None
    | Some false => Some []
    | Some true => match nth_error vals i with
                   | None => None
                   | Some x => option_map (fun y => [(Z.of_nat i, y)]) (convert_putmask t u x)
                   end
    end) rows)).
(* Convert.cpp:3875-3974: PutMask for a one-dimensional array and as many values; [Some None]: left to numpy.
   [strided]: the stride of the array differs from its item size *)
Definition PutMask (ord : sched) (threaded : bool) (t u : dtype) (strided : bool) (arr : list val) (mask : list bool) (vals : list val) :
    option (option (list val)) :=
  let n := length arr in
  if (n =? length mask)%nat && ((n <=? 1)%nat || negb strided) && (n =? length vals)%nat then
    match all_some (map (fun call : nat * nat => putmask_rows t u mask vals (seq (fst call) (snd call))) (chunk_calls threaded CHUNK n)) with
    | None => None
    | Some wss => option_map Some (writes (ord _ (concat wss)) arr)
    end
  else Some None.

(** ** Joining arrays *)

(* Convert.cpp:2954-3046: one array [(t, xs)] converted and written at its offset *)
Definition hstack_writes (u : dtype) (off : Z) (a : dtype * list val) : option (list (Z * val)) :=
  option_map (enum 1 off) (all_some (map (convert_safe (fst a) u) (snd a))).
Fixpoint hstack_all (u : dtype) (off : Z) (arrs : list (dtype * list val)) : option (list (Z * val)) :=
  match arrs with
  | [] => Some []
  | a :: arrs' =>
      match hstack_writes u off a, hstack_all u (off + Z.of_nat (length (snd a))) arrs' with
      | Some ws, Some ws' => Some (ws ++ ws')
      | _, _ => None
      end
  end.
(* Convert.cpp:2794-3057 HStack of one-dimensional numeric arrays to type [u] *)
Definition HStack (ord : sched) (u : dtype) (arrs : list (dtype * list val)) (garbage : list val) : option (list val) :=
  match hstack_all u 0 arrs with Some ws => writes (ord _ ws) garbage | None => None end.
(* Convert.cpp:3220-3310 HomogenizeArrays *)
Definition HomogenizeArrays (u : dtype) (arrs : list (dtype * list val)) : option (list (list val)) :=
  all_some (map (fun a : dtype * list val => all_some (map (convert_homogenize (fst a) u) (snd a))) arrs).

(** ** The common type of several arrays: numpy's type numbers on Linux (long has 64 bits) *)

Definition NPY_LONGDOUBLE : Z := 13.
Definition NPY_OBJECT : Z := 17.
Definition NPY_STRING : Z := 18.
Definition NPY_UNICODE : Z := 19.
(* BOOL 0, BYTE 1, UBYTE 2, SHORT 3, USHORT 4, INT 5, UINT 6, LONG 7, ULONG 8, LONGLONG 9, ULONGLONG 10, FLOAT 11, DOUBLE 12 *)
Definition of_num (n : Z) : option dtype :=
  zrd [Bool; I8; U8; I16; U16; I32; U32; I64; U64; I64; U64; F32; F64; F80] n.

Record maxes := { maxfloat : Z; maxint : Z; maxuint : Z; maxstring : Z; maxobject : Z; aborted : Z }.
(* Convert.cpp:2609-2661: one array *)
Definition upcast_step (m : maxes) (t : Z) : maxes :=
  if t <=? NPY_LONGDOUBLE then
    if 11 <=? t then {| maxfloat := if maxfloat m <? t then t else maxfloat m; maxint := maxint m; maxuint := maxuint m; maxstring := maxstring m; maxobject := maxobject m; aborted := aborted m |}
    else if Z.odd t || (t =? 0) then {| maxfloat := maxfloat m; maxint := if maxint m <? t then t else maxint m; maxuint := maxuint m; maxstring := maxstring m; maxobject := maxobject m; aborted := aborted m |}
    else {| maxfloat := maxfloat m; maxint := maxint m; maxuint := if maxuint m <? t then t else maxuint m; maxstring := maxstring m; maxobject := maxobject m; aborted := aborted m |}
  else
    if t =? NPY_OBJECT then {| maxfloat := maxfloat m; maxint := maxint m; maxuint := maxuint m; maxstring := maxstring m; maxobject := NPY_OBJECT; aborted := aborted m |}
    else if t =? NPY_UNICODE then {| maxfloat := maxfloat m; maxint := maxint m; maxuint := maxuint m; maxstring := NPY_UNICODE; maxobject := maxobject m; aborted := aborted m |}
    else if t =? NPY_STRING then {| maxfloat := maxfloat m; maxint := maxint m; maxuint := maxuint m; maxstring := if maxstring m <? NPY_STRING then NPY_STRING else maxstring m; maxobject := maxobject m; aborted := aborted m |}
    else {| maxfloat := maxfloat m; maxint := maxint m; maxuint := maxuint m; maxstring := maxstring m; maxobject := maxobject m; aborted := t |}.
(* Convert.cpp:2663-2757 *)
Definition upcast_result (m : maxes) : Z :=
  if 0 <? aborted m then -1
  else if maxobject m =? NPY_OBJECT then NPY_OBJECT
  else if 0 <? maxstring m then maxstring m
  else if 0 <? maxfloat m then
    if 11 <? maxfloat m then maxfloat m
    else if (3 <? maxint m) || (4 <? maxuint m) then 12 else maxfloat m
  else if 0 <? maxuint m then
    if maxuint m <? maxint m then maxint m
    else if maxint m =? -1 then maxuint m
    else if (maxuint m =? 10) || (maxuint m =? 8) then 12
    else if (maxint m =? 7) || (maxint m =? 9) then 12
    else maxuint m + 1
  else maxint m.
(* Convert.cpp:2600-2757 *)
Definition GetUpcastDtype (types : list Z) : Z :=
  upcast_result (fold_left upcast_step types {| maxfloat := -1; maxint := -1; maxuint := -1; maxstring := -1; maxobject := -1; aborted := 0 |}).
