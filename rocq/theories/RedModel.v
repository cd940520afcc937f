(** Reductions of a whole array to one number: src/Reduce.cpp.
    Modelled: the per-block kernels of sum, nansum, var, nanvar, min, max, nanmin, nanmax (with the lanes of the
    AVX2 loops), the two ways of running them (one call, or blocks handed to cores and gathered), the final
    choice of the returned Python object, the four arg functions, and the test on strides in Reduce().
    Simplified: a double is either an [option Z] with 53-bit rounding after each operation (sums of integers)
    or an [option R] without rounding (floating-point sums, means, variances); [None] is NaN and infinities
    are left out.  For min and max only the order of floats matters ([Num.fl]).  Long double is left out.
    Each core's blocks are given as lists: which core gets which block is up to the scheduler (MathThreads.h,
    SchedModel.v). *)
From Verif Require Import Base Num LayoutModel.
From Coq Require Import Reals.
Local Open Scope Z_scope.

(** * Doubles *)

(* operations on C doubles used by the sums; [toI] is static_cast<int64_t>, whose out-of-range results are
   those of the x86 instruction cvttsd2si (INT64_MIN) *)
Record dops := { car : Type; zero : car; nan : car; isnan : car -> bool; plus : car -> car -> car; toI : car -> Z }.

Definition INT64_MIN : Z := - 2 ^ 63.
Definition wrap64 (z : Z) : Z := (z + 2 ^ 63) mod 2 ^ 64 - 2 ^ 63.

(* round an integer to 53 significant bits, ties to even *)
Definition rne (n e : Z) : Z :=
  let q := n / 2 ^ e in let r := n mod 2 ^ e in
  if 2 * r <? 2 ^ e then q else if 2 * r =? 2 ^ e then (if Z.even q then q else q + 1) else q + 1.
Definition rnd (z : Z) : Z :=
  if Z.abs z <=? 2 ^ 53 then z
  else let e := Z.log2 (Z.abs z) - 52 in Z.sgn z * (rne (Z.abs z) e * 2 ^ e).

Definition inI64 (z : Z) : bool := (- 2 ^ 63 <=? z) && (z <? 2 ^ 63).
Definition IntD : dops :=
  {| car := option Z; zero := Some 0; nan := None; isnan := fun d => match d with None => true | _ => false end;
     plus := fun a b => match a, b with Some x, Some y => Some (rnd (x + y)) | _, _ => None end;
     toI := fun d => match d with Some z => if inI64 z then z else INT64_MIN | None => INT64_MIN end |}.

Definition Rtrunc (r : R) : Z := if Rle_dec 0 r then Int_part r else - Int_part (- r).
Definition RealD : dops :=
  {| car := option R; zero := Some 0%R; nan := None; isnan := fun d => match d with None => true | _ => false end;
     plus := fun a b => match a, b with Some x, Some y => Some (x + y)%R | _, _ => None end;
     toI := fun d => match d with Some r => if inI64 (Rtrunc r) then Rtrunc r else INT64_MIN | None => INT64_MIN end |}.

(** * Vector loops *)

(* the rows of [c] elements a loop with step c reads, and what is left for the scalar loop *)
Definition rows {X} (c : nat) (l : list X) : list (list X) :=
  map (fun i => firstn c (skipn (i * c) l)) (seq 0 (length l / c)).
Definition rest {X} (c : nat) (l : list X) : list X := skipn (length l / c * c) l.
(* one 256-bit (or wider) operation, lane by lane *)
Definition zipw {X} (op : X -> X -> X) (a b : list X) : list X := map (fun p => op (fst p) (snd p)) (combine a b).
(* Reduce.cpp:1124-1130 (and 1323-1329, 2240-2246, 2312-2318, 2374-2380): eight registers of w lanes, kept
   here as one list of 8w elements, are combined pairwise into one *)
Definition reg {X} (w r : nat) (acc : list X) : list X := firstn w (skipn (r * w) acc).
Definition wind {X} (op : X -> X -> X) (w : nat) (acc : list X) : list X :=
  let m i := reg w i acc in
  zipw op (zipw op (zipw op (m 0%nat) (m 1%nat)) (zipw op (m 2%nat) (m 3%nat)))
          (zipw op (zipw op (m 4%nat) (m 5%nat)) (zipw op (m 6%nat) (m 7%nat))).
(* result = t[0]; then the other lanes one by one *)
Definition horiz {X} (op : X -> X -> X) (d : X) (t : list X) : X :=
  match t with [] => d | x :: r => fold_left op r x end.

(** * Sums *)

(* Reduce.cpp:361-380, struct stScatterGatherFunc: the fields the sums use (meanCalculation is passed apart) *)
Record sg (A : dops) := SG { lenOut : Z; resultOut : car A; resultInt : Z }.
Arguments SG {A}. Arguments lenOut {A}. Arguments resultOut {A}. Arguments resultInt {A}.
Definition sg0 (A : dops) : sg A := SG 0 (zero A) 0.

(* operations.h:5-14, cast<int64_t>(double) *)
Definition cast_i64 (A : dops) (d : car A) : Z := if isnan A d then INT64_MIN else toI A d.
(* operations.h:38-47, add<double> and add<int64_t> *)
Definition add_d (A : dops) (x y : car A) : car A := if isnan A x || isnan A y then nan A else plus A x y.
Definition add_i (x y : Z) : Z := if (x =? INT64_MIN) || (y =? INT64_MIN) then INT64_MIN else wrap64 (x + y).

Section kernels.
Context {V : Type} (A : dops) (valid : V -> bool) (f : V -> car A).
(* Reduce.cpp:2176-2206, ReduceAddSlow (and, with f the squared distance from the mean, 2749-2770, ReduceVar) *)
Fixpoint slow_sum (l : list V) (acc : car A) : car A :=
  match l with
  | [] => acc
  | x :: r => if valid x then slow_sum r (plus A acc (f x)) else nan A
  end.
Definition AddSlow (l : list V) (s : sg A) : sg A :=
  let out := add_d A (resultOut s) (slow_sum l (zero A)) in
  SG (lenOut s + Z.of_nat (length l)) out (cast_i64 A out).
(* the 32-lane loop of ReduceAddF32, ReduceAddI32 and ReduceAddD64: Reduce.cpp:2209-2262, 2272-2334, 2343-2396 *)
Definition vec_sum (l : list V) : car A :=
  let d := map f l in
  let r0 := if (32 <=? length l)%nat
            then horiz (plus A) (zero A) (wind (plus A) 4 (fold_left (zipw (plus A)) (rows 32 d) (repeat (zero A) 32)))
            else zero A in
  fold_left (plus A) (rest 32 d) r0.
(* Reduce.cpp:2263-2268 and 2399-2402, the end of ReduceAddF32 and ReduceAddD64 *)
Definition AddFloat (l : list V) (s : sg A) : sg A :=
  let r := vec_sum l in
  SG (lenOut s + Z.of_nat (length l)) (plus A (resultOut s) r) (wrap64 (resultInt s + toI A r)).
(* Reduce.cpp:2272-2340, ReduceAddI32 *)
Definition AddI32 (l : list V) (s : sg A) : sg A :=
  if existsb (fun x => negb (valid x)) l
  then SG (lenOut s + Z.of_nat (length l)) (nan A) INT64_MIN
  else let r := vec_sum l in
       SG (lenOut s + Z.of_nat (length l)) (add_d A (resultOut s) r) (add_i (resultInt s) (toI A r)).
(* Reduce.cpp:2618-2636, ReduceNanSum (and 2875-2897, ReduceNanVariance) *)
Definition NanSum (l : list V) (s : sg A) : sg A :=
  let v := filter valid l in
  let r := fold_left (fun acc x => plus A acc (f x)) v (zero A) in
  SG (lenOut s + Z.of_nat (length v)) (plus A (resultOut s) r) (wrap64 (resultInt s + toI A r)).
(* Reduce.cpp:2773-2826, ReduceVarF32: one register of four lanes; the integer result is not written *)
Definition VarF32 (l : list V) (s : sg A) : sg A :=
  let d := map f l in
  let r0 := if (4 <=? length l)%nat
            then horiz (plus A) (zero A) (fold_left (zipw (plus A)) (rows 4 d) (repeat (zero A) 4)) else zero A in
  let r := fold_left (plus A) (rest 4 d) r0 in
  SG (lenOut s + Z.of_nat (length l)) (plus A (resultOut s) r) (resultInt s).
End kernels.

(* Reduce.cpp:540-559, the gathering of sums, one core *)
Definition gather_sum (A : dops) (s : sg A) (c : sg A) : sg A :=
  let out := add_d A (resultOut s) (resultOut c) in
  let i := add_i (resultInt s) (resultInt c) in
  let n := lenOut s + lenOut c in
  if isnan A out then SG n out INT64_MIN
  else if i =? INT64_MIN then SG n (nan A) i
  else SG n out i.

(* MathThreads.h:165-166 *)
Definition WORK_ITEM_CHUNK : Z := 16384.
Definition WORK_ITEM_BIG : Z := 2 * WORK_ITEM_CHUNK.
(* the blocks each core works through, core by core (main thread first) *)
Definition schedule (V : Type) := list (list (list V)).
(* Reduce.cpp:423-428 and 464 *)
Definition threaded {V} (noThreading : bool) (l : list V) : bool :=
  negb noThreading && (WORK_ITEM_BIG <=? Z.of_nat (length l)).
(* Reduce.cpp:382-416 (AnyScatterGather) and 420-563 (WorkScatterGatherCall), for sums *)
Definition WorkSum {V} (A : dops) (k : list V -> sg A -> sg A) (noThreading : bool) (sch : schedule V)
    (l : list V) (s : sg A) : sg A :=
  if threaded noThreading l
  then fold_left (gather_sum A) (map (fun blocks => fold_left (fun c b => k b c) blocks (sg0 A)) sch) s
  else k l s.

(* a returned Python object *)
Inductive pyres (D : Type) := PyInt (z : Z) | PyFloat (d : D) | PyNone | PyNull | ValueError.
Arguments PyInt {D}. Arguments PyFloat {D}. Arguments PyNone {D}. Arguments PyNull {D}. Arguments ValueError {D}.

(** ** Integer types *)
Inductive ity := I8 | I16 | I32 | I64 | U8 | U16 | U32 | U64.
Definition signed (t : ity) : bool := match t with I8 | I16 | I32 | I64 => true | _ => false end.
Definition bits (t : ity) : Z := match t with I8 | U8 => 8 | I16 | U16 => 16 | I32 | U32 => 32 | I64 | U64 => 64 end.
Definition tmin (t : ity) : Z := if signed t then - 2 ^ (bits t - 1) else 0.
Definition tmax (t : ity) : Z := if signed t then 2 ^ (bits t - 1) - 1 else 2 ^ bits t - 1.
(* missing_values.h: the invalid value is the smallest of a signed type and the largest of an unsigned type *)
Definition inv (t : ity) : Z := if signed t then tmin t else tmax t.
Definition ivalid (t : ity) (z : Z) : bool := negb (z =? inv t).

(* Reduce.cpp:2573-2607, the kernel of REDUCE_SUM for an integer type; a value becomes the nearest double *)
Definition toD (z : Z) : car IntD := Some (rnd z).
Definition sum_kernel (t : ity) : list Z -> sg IntD -> sg IntD :=
  match t with I32 => AddI32 IntD (ivalid t) toD | _ => AddSlow IntD (ivalid t) toD end.
Definition dgt (a : car IntD) (b : Z) : bool := match a with Some x => b <? x | None => false end.
Definition dlt (a : car IntD) (b : Z) : bool := match a with Some x => x <? b | None => false end.
(* Reduce.cpp:3266-3290: the literal 9223372036854775807.0 is the double 2^63, 18446744073709551615.0 is 2^64 *)
Definition sum_return (t : ity) (s : sg IntD) : pyres (car IntD) :=
  match t with
  | I64 => if dgt (resultOut s) (2 ^ 63) || dlt (resultOut s) (- 2 ^ 63) then PyFloat (resultOut s) else PyInt (resultInt s)
  | U64 => if dgt (resultOut s) (2 ^ 64) then PyFloat (resultOut s)
           else PyInt (if resultInt s =? INT64_MIN then 2 ^ 64 - 1 else resultInt s mod 2 ^ 64)
  | _ => PyInt (resultInt s)
  end.
(* Reduce.cpp:3128-3153, 3176-3196 and 3257-3290, ReduceInternal with REDUCE_SUM and REDUCE_NANSUM *)
Definition int_sum (t : ity) (noThreading : bool) (sch : schedule Z) (l : list Z) : pyres (car IntD) :=
  match l with
  | [] => PyNone
  | _ => sum_return t (WorkSum IntD (sum_kernel t) noThreading sch l (sg0 IntD))
  end.
Definition int_nansum (t : ity) (noThreading : bool) (sch : schedule Z) (l : list Z) : pyres (car IntD) :=
  match l with
  | [] => PyNone
  | _ => sum_return t (WorkSum IntD (NanSum IntD (ivalid t) toD) noThreading sch l (sg0 IntD))
  end.

(** ** Floating point, over the reals *)
Definition rvalid (x : option R) : bool := match x with Some _ => true | None => false end.
Definition float_sum (noThreading : bool) (sch : schedule (option R)) (l : list (option R)) : pyres (option R) :=
  match l with
  | [] => PyNone
  | _ => PyFloat (resultOut (@WorkSum (option R) RealD (AddFloat RealD (fun x : option R => x)) noThreading sch l (sg0 RealD)))
  end.
Definition float_nansum (noThreading : bool) (sch : schedule (option R)) (l : list (option R)) : pyres (option R) :=
  match l with
  | [] => PyNone
  | _ => PyFloat (resultOut (@WorkSum (option R) RealD (NanSum RealD rvalid (fun x => x)) noThreading sch l (sg0 RealD)))
  end.

(** ** Mean, variance, standard deviation (of floats: the kernels of double arrays, or of float32 arrays) *)
Definition rdiv (a : option R) (n : Z) : option R := match a with Some x => Some (x / IZR n)%R | None => None end.
Definition rsqrt (a : option R) : option R := match a with Some x => Some (sqrt x) | None => None end.
(* the square of the distance from the mean *)
Definition dist2 (mean : option R) (x : option R) : option R :=
  match x, mean with Some a, Some m => Some ((a - m) * (a - m))%R | _, _ => None end.
Definition first_kernel (nanf : bool) : list (option R) -> sg RealD -> sg RealD :=
  if nanf then NanSum RealD rvalid (fun x => x) else AddFloat RealD (fun x : option R => x).
Definition var_kernel (f32 nanf : bool) (mean : option R) : list (option R) -> sg RealD -> sg RealD :=
  if nanf then NanSum RealD rvalid (dist2 mean)
  else if f32 then VarF32 RealD (dist2 mean) else AddSlow RealD rvalid (dist2 mean).
(* Reduce.cpp:3198-3220, the mean *)
Definition mean_calc (nanf noThreading : bool) (sch : schedule (option R)) (l : list (option R)) : option R :=
  let s := WorkSum RealD (first_kernel nanf) noThreading sch l (sg0 RealD) in
  if 0 <? lenOut s then rdiv (resultOut s) (lenOut s) else Some 0%R.
Definition float_mean (nanf noThreading : bool) (sch : schedule (option R)) (l : list (option R)) : pyres (option R) :=
  match l with [] => PyNone | _ => PyFloat (mean_calc nanf noThreading sch l) end.
(* Reduce.cpp:3222-3255, the second pass; the scheduler may hand out the blocks differently ([sch2]) *)
Definition float_var (f32 nanf std noThreading : bool) (sch1 sch2 : schedule (option R)) (ddof : Z)
    (l : list (option R)) : pyres (option R) :=
  match l with
  | [] => PyNone
  | _ =>
    let m := mean_calc nanf noThreading sch1 l in
    let s := WorkSum RealD (var_kernel f32 nanf m) noThreading sch2 l (sg0 RealD) in
    PyFloat (if ddof <? lenOut s
             then let v := rdiv (resultOut s) (lenOut s - ddof) in if std then rsqrt v else v
             else None)
  end.

(** * Minimum and maximum *)

(* what the four functions need to know of an element type: its valid values, its invalid value, the order *)
Record vops := { val : Type; vvalid : val -> bool; vinv : val; vlt : val -> val -> bool }.
Definition IntV (t : ity) : vops := {| val := Z; vvalid := ivalid t; vinv := inv t; vlt := Z.ltb |}.
Definition FltV : vops := {| val := fl; vvalid := fun x => negb (is_nan x); vinv := NaN; vlt := flt |}.
(* bool arrays are read as int8_t *)

(* std::max(x, y) is (x < y) ? y : x and std::min(x, y) is (y < x) ? y : x *)
Definition std_op (M : vops) (max : bool) (x y : val M) : val M :=
  if max then (if vlt M x y then y else x) else (if vlt M y x then y else x).
(* operations.h:16-36, riptide::max and riptide::min *)
Definition rt_op (M : vops) (max : bool) (x y : val M) : val M :=
  if negb (vvalid M x) || negb (vvalid M y) then vinv M else std_op M max x y.
(* Reduce.cpp:77-141, MIN_OP and MAX_OP, one lane.  Integers: the smaller or larger one.
   Floats: _mm256_max_ps(x, y) is (x > y) ? x : y, and y is first replaced by x where x is NaN, so NaN wins *)
Definition int_op (max : bool) (x y : Z) : Z := if max then Z.max x y else Z.min x y.
Definition flt_op (max : bool) (x y : fl) : fl :=
  let y' := if is_nan x then x else y in
  if max then (if flt y' x then x else y') else (if flt x y' then x else y').

(* Reduce.cpp:361-380: the fields min and max use; resultOut is the result as a double *)
Record mm (M : vops) := MM { mlen : Z; mout : fl; mval : option (val M) }.
Arguments MM {M}. Arguments mlen {M}. Arguments mout {M}. Arguments mval {M}.
Definition mm0 (M : vops) : mm M := MM 0 (Fin 0) None.

Section minmax.
Context (M : vops) (dbl : val M -> fl) (max : bool).
(* riptide::cast<double> *)
Definition cast_d (x : val M) : fl := if vvalid M x then dbl x else NaN.
(* Reduce.cpp:1044-1059 (also 1155-1170, 1242-1257 and 1357-1372): joining a block to the core's result *)
Definition join (n : Z) (r : val M) (s : mm M) : option (mm M) :=
  if mlen s =? 0 then Some (MM (mlen s + n) (cast_d r) (Some r))
  else match mval s with
       | None => None                     (* std::get<T> of another alternative: bad_variant_access *)
       | Some p => Some (MM (mlen s + n) (rt_op FltV max (mout s) (cast_d r)) (Some (rt_op M max p r)))
       end.
(* Reduce.cpp:1022-1061 (ReduceMax) and 1220-1259 (ReduceMin), non_vector *)
Fixpoint nv_loop (l : list (val M)) (r : val M) : val M :=
  match l with
  | [] => r
  | x :: k => if vvalid M x then nv_loop k (std_op M max r x) else vinv M
  end.
Definition MM_scalar (l : list (val M)) (s : mm M) : option (mm M) :=
  match l with
  | [] => None                            (* reads past the end; blocks are never empty *)
  | x :: k => join (Z.of_nat (length l)) (if vvalid M x then nv_loop k x else x) s
  end.
(* Reduce.cpp:1063-1171 (ReduceMax) and 1261-1373 (ReduceMin), avx2: [w] elements per register,
   [scan]: the type's invalid value is neither the extreme value looked for nor NaN *)
Definition vec_mm (vop : val M -> val M -> val M) (w : nat) (x : val M) (l : list (val M)) : val M :=
  let r0 := if (8 * w <=? length l)%nat
            then match rows (8 * w) l with
                 | [] => x
                 | r :: rs => horiz (rt_op M max) x (wind vop w (fold_left (zipw vop) rs r))
                 end
            else x in
  fold_left (rt_op M max) (rest (8 * w) l) r0.
Definition MM_avx2 (scan : bool) (vop : val M -> val M -> val M) (w : nat) (l : list (val M)) (s : mm M)
    : option (mm M) :=
  match l with
  | [] => None
  | x :: _ =>
    if scan && existsb (fun y => negb (vvalid M y)) l
    then Some (MM (mlen s + Z.of_nat (length l)) NaN (Some (vinv M)))
    else join (Z.of_nat (length l)) (vec_mm vop w x l) s
  end.
(* Reduce.cpp:1629-1703 (ReduceNanMin) and 1903-1977 (ReduceNanMax), non_vector *)
Definition MM_nan (l : list (val M)) (s : mm M) : option (mm M) :=
  match filter (vvalid M) l with
  | [] => Some s
  | x :: k =>
    let r := fold_left (std_op M max) k x in
    if mlen s =? 0 then Some (MM 1 (dbl r) (Some r))
    else match mval s with
         | None => None
         | Some p => Some (MM (mlen s) (std_op FltV max (mout s) (dbl r)) (Some (rt_op M max p r)))
         end
  end.

(* Reduce.cpp:467-538, gathering one core; [calcs] says that some core has been accepted *)
Definition gather_mm (st : option (bool * mm M)) (c : mm M) : option (bool * mm M) :=
  match st with
  | None => None
  | Some (calcs, s) =>
    let n := mlen s + mlen c in
    if mlen c =? 0 then Some (calcs, MM n (mout s) (mval s))
    else if negb calcs then Some (true, MM n (mout c) (mval c))
    else match mval s, mval c with
         | Some p, Some v =>
           let out := rt_op FltV max (mout s) (mout c) in
           let m := rt_op M max p v in
           Some (true, if is_nan out then MM n out (Some (vinv M))
                       else if negb (vvalid M m) then MM n NaN (Some m) else MM n out (Some m))
         | _, _ => None
         end
  end.
Fixpoint run_blocks (k : list (val M) -> mm M -> option (mm M)) (bs : list (list (val M))) (s : mm M) : option (mm M) :=
  match bs with
  | [] => Some s
  | b :: r => match k b s with Some s' => run_blocks k r s' | None => None end
  end.
Fixpoint run_cores (k : list (val M) -> mm M -> option (mm M)) (cs : list (list (list (val M))))
    (st : option (bool * mm M)) : option (bool * mm M) :=
  match cs with
  | [] => st
  | c :: r => match run_blocks k c (mm0 M) with Some s => run_cores k r (gather_mm st s) | None => None end
  end.
(* Reduce.cpp:420-563, WorkScatterGatherCall for min and max *)
Definition WorkMM (k : list (val M) -> mm M -> option (mm M)) (noThreading : bool) (sch : schedule (val M))
    (l : list (val M)) : option (mm M) :=
  if threaded noThreading l
  then match run_cores k sch (Some (false, mm0 M)) with Some (_, s) => Some s | None => None end
  else k l (mm0 M).
End minmax.

(* Reduce.cpp:1176-1209 (ReduceMax) and 1570-1617 (ReduceMin): 64-bit types use the scalar loop.
   The conversion to double of a 64-bit value is not rounded here: for integers only whether resultOut is NaN matters. *)
Definition per_reg (t : ity) : nat := match t with I8 | U8 => 32 | I16 | U16 => 16 | I32 | U32 => 8 | _ => 4 end.
Definition mm_scan (t : ity) (max : bool) : bool := if max then negb (inv t =? tmax t) else negb (inv t =? tmin t).
Definition mm_kernel (t : ity) (max : bool) : list Z -> mm (IntV t) -> option (mm (IntV t)) :=
  match t with
  | I64 | U64 => MM_scalar (IntV t) Fin max
  | _ => MM_avx2 (IntV t) Fin max (mm_scan t max) (int_op max) (per_reg t)
  end.
Definition flt_kernel (w : nat) (max : bool) : list fl -> mm FltV -> option (mm FltV) :=
  MM_avx2 FltV (fun x => x) max false (flt_op max) w.

(* Reduce.cpp:3291-3359, what ReduceInternal returns; the outer None is a thrown C++ exception *)
Definition int_minmax (t : ity) (nanf max noThreading : bool) (sch : schedule Z) (l : list Z) : option (pyres fl) :=
  match l with
  | [] => Some PyNone
  | _ =>
    let k := if nanf then MM_nan (IntV t) Fin max else mm_kernel t max in
    match WorkMM (IntV t) max k noThreading sch l with
    | None => None
    | Some s => if mlen s =? 0 then Some (PyInt (inv t))
                else match mval s with Some v => Some (PyInt v) | None => None end
    end
  end.
(* [w] is 8 for float32 and 4 for float64 *)
Definition flt_minmax (w : nat) (nanf max noThreading : bool) (sch : schedule fl) (l : list fl) : option (pyres fl) :=
  match l with
  | [] => Some PyNone
  | _ =>
    let k := if nanf then MM_nan FltV (fun x => x) max else flt_kernel w max in
    match WorkMM FltV max k noThreading sch l with
    | None => None
    | Some s => if mlen s =? 0 then Some (PyFloat NaN) else Some (PyFloat (mout s))
    end
  end.

(** * Positions of the minimum and maximum *)
Section arg.
Context (M : vops) (max : bool).
(* temp > result, temp < result *)
Definition beats (x r : val M) : bool := if max then vlt M r x else vlt M x r.
(* Reduce.cpp:594-641 (ReduceArgMax) and 690-737 (ReduceArgMin) *)
Fixpoint arg_loop (l : list (val M)) (i : Z) (r : val M) (ri : Z) : Z :=
  match l with
  | [] => ri
  | x :: k => if negb (vvalid M x) then i
              else if beats x r then arg_loop k (i + 1) x i else arg_loop k (i + 1) r ri
  end.
Definition arg_index (l : list (val M)) : Z :=
  match l with [] => -1 | x :: k => if vvalid M x then arg_loop k 1 x 0 else 0 end.
(* Reduce.cpp:789-857 (ReduceNanargmax) and 908-974 (ReduceNanargmin): first valid element, then the others *)
Fixpoint nanarg_loop (l : list (val M)) (i : Z) (r : val M) (ri : Z) : Z :=
  match l with
  | [] => ri
  | x :: k => if vvalid M x && beats x r then nanarg_loop k (i + 1) x i else nanarg_loop k (i + 1) r ri
  end.
Fixpoint nanarg_find (l : list (val M)) (i : Z) : Z :=
  match l with [] => -1 | x :: k => if vvalid M x then nanarg_loop k (i + 1) x i else nanarg_find k (i + 1) end.
(* Reduce.cpp:3155-3174, ReduceInternal; one call for the whole array *)
Definition arg_reduce (nanf : bool) (l : list (val M)) : pyres fl :=
  match l with
  | [] => PyNone
  | _ => let i := if nanf then nanarg_find l 0 else arg_index l in
         if i =? -1 then ValueError else PyInt i
  end.
End arg.

(** * Which bytes Reduce reads *)
(* Reduce.cpp:3395-3408: Reduce() takes the array when its first dimension is at most 1 or its first stride is
   the item size; the kernels then read CalcArrayLength items one after the other.
   Result: None = the array is left to numpy (returns None); Some offsets = the byte offsets read.
   A 0-d array has no first dimension (PyArray_DIMS is NULL): [Null_deref]. *)
Inductive reads := Null_deref | Punt | Read (offs : list Z).
Definition Reduce_reads (a : layout) : reads :=
  match dims a, strides a with
  | d0 :: _, s0 :: _ =>
    if (d0 <=? 1)%nat || (s0 =? isz a)
    then Read (map (fun k => Z.of_nat k * isz a) (seq 0 (prod (dims a))))
    else Punt
  | _, _ => Null_deref
  end.
