(** Model of EmaAll32 of /repo/src/Ema.cpp from its arguments to its results: the checks of the arguments, the choice of the function for the
    type of each column and of the times, and the calls.  The functions themselves are those of EmaModel.
    Simplified: memory can always be had; the columns of one call are computed one after the other (each has its arrays for itself); for columns
    of long double the products and sums of moving averages are those of float64.  No proofs in this file. *)
From Verif Require Import Base Mem EmaModel AllModel.
Local Open Scope Z_scope.

(* an array that is read as one block: type number, elements of its memory, the first one, the distance of two elements, their number *)
Record arg (X : Type) := mkArg { a_dtype : Z; a_mem : list X; a_start : Z; a_step : Z; a_len : Z }.
Arguments mkArg {X}.
Arguments a_dtype {X}.
Arguments a_mem {X}.
Arguments a_start {X}.
Arguments a_step {X}.
Arguments a_len {X}.
(* Ema.cpp:2448, 2453-2455: only the address of the first element is passed on.  The arrays are read here whether or not the function uses them *)
Definition read_arg {X} (a : arg X) : option (list X) :=
  if (0 <=? a_start a) && (a_start a + a_len a <=? Z.of_nat (length (a_mem a)))
  then Some (firstn (Z.to_nat (a_len a)) (skipn (Z.to_nat (a_start a)) (a_mem a))) else None.
(* what is given for the times and the masks *)
Inductive param (X : Type) := PNone | PArray (a : arg X) | POther.
Arguments PNone {X}.
Arguments PArray {X} a.
Arguments POther {X}.

(* Ema.h:23-35; the value is converted to the enumeration, which has 32 bits *)
Definition efun_of (func : Z) : option efun :=
  match func mod 2 ^ 32 with
  | 300 => Some CUMSUM | 301 => Some DECAY | 302 => Some CUMPROD | 303 => Some FINDNTH | 304 => Some NORMAL | 305 => Some WEIGHTED
  | 306 => Some CUMNANMAX | 307 => Some CUMNANMIN | 308 => Some CUMMAX | 309 => Some CUMMIN
  | _ => None
  end.
(* the cases of NumPy's type numbers, CommonInc.h:110-117 *)
Definition ty_of (d : Z) : ty :=
  match d with
  | 0 => Bool | 1 => I8 | 2 => U8 | 3 => I16 | 4 => U16 | 5 => I32 | 6 => U32 | 7 | 9 => I64 | 8 | 10 => U64 | 11 => F32 | 12 => F64 | 13 => LD
  | _ => Other
  end.
(* the type number that GetEmaByFunction stores, Ema.cpp:1980-2246; the extremes store that of the column *)
Definition out_num (f : efun) (d : Z) (o : ty) : Z :=
  match f with
  | CUMNANMIN | CUMNANMAX | CUMMIN | CUMMAX => d
  | _ => match o with I64 => 7 | U64 => 8 | I32 => 5 | F32 => 11 | F64 => 12 | LD => 13 | _ => -1 end
  end.
Definition ty_eqb (a b : ty) : bool :=
  match a, b with
  | Bool, Bool | I8, I8 | I16, I16 | I32, I32 | I64, I64 | U8, U8 | U16, U16 | U32, U32 | U64, U64 | F32, F32 | F64, F64 | LD, LD | Other, Other => true
  | _, _ => false
  end.

Section Ea.
  Context {F : Type} (A : arith F).
  (* the exponential function and the change of sign of float64 *)
  Context (fexp fneg : F -> F).
  (* what memory that is not initialised holds *)
  Context (junk : nat -> F).

  (* Ema.cpp:1218-1222 and 1237-1241: products *)
  Definition one_of (U : ctype) : num F := match U with CF _ => R (of_int A U 1) | _ => I 1 end.
  Definition prod (U : ctype) (a b : num F) : num F :=
    match U with CF _ => R (fmul A U (fval A a) (fval A b)) | _ => I (wrapT U (zval a * zval b)) end.
  (* Ema.cpp:1471, 1581: pTime[i] - pLastTime[location] as float64; None: signed overflow *)
  Definition delta (V : ctype) (a b : num F) : option F :=
    match V with
    | CI n => let d := zval a - zval b in if (- 2 ^ (8 * n - 1) <=? d) && (d <? 2 ^ (8 * n - 1)) then Some (of_int A D64 d) else None
    | CU n => Some (of_int A D64 ((zval a - zval b) mod 2 ^ (8 * n)))
    | CF _ => Some (cast A D64 (fsub A V (fval A a) (fval A b)))
    end.
  (* Ema.cpp:1638-1647: the literals are unsigned, so this is a great number for the unsigned and the floating point types *)
  Definition large_negative (V : ctype) : num F :=
    match V with
    | CI n => I (- 2 ^ (8 * n - 1))
    | CU n => I (2 ^ (8 * n - 1))
    | CF n => R (of_int A V (2 ^ (8 * n - 1)))
    end.
  Definition negative (x : F) : bool := fltb A x (fzero A D64).
  (* exp(-decayRate * x) *)
  Definition decay_by (rate x : F) : F := fexp (fmul A D64 (fneg rate) x).
  Definition to64 (v : num F) : F := fval A (conv A D64 v).

  Definition floats_of (r : option (list (option F))) : option (list (option (num F))) := option_map (map (option_map (@R F))) r.
  Definition ints_of (r : option (list (option Z))) : option (list (option (num F))) := option_map (map (option_map (@I F))) r.
  (* the call of the function for one column, Ema.cpp:2281-2297.  T, U, V: the types of the column, of the output and of the times.
     None in the result: undefined behaviour; None for a row: nothing is written *)
  Definition run_kernel (f : efun) (T U V : ctype) (keys : list Z) (vals times : list (num F)) (im rm : option (list bool)) (rate : F) (n : Z)
    : option (list (option (num F))) :=
    let ws0 := map junk (seq 0 (Z.to_nat (n + 1))) in
    match f with
    | CUMSUM => CumOp keys vals n im rm (inval A U) (conv A U) (zero_of A U) (add A U)
    | CUMPROD => CumOp keys vals n im rm (inval A U) (conv A U) (one_of U) (prod U)
    | CUMNANMIN => CumNanExtreme keys vals n im rm (inval A T) (ok A T) (less A T)
    | CUMNANMAX => CumNanExtreme keys vals n im rm (inval A T) (ok A T) (greater A T)
    | CUMMIN => CumExtreme keys vals n im rm (inval A T) (ok A T) (less A T)
    | CUMMAX => CumExtreme keys vals n im rm (inval A T) (ok A T) (greater A T)
    | FINDNTH => ints_of (FindNth keys n im)
    | DECAY => floats_of (EmaDecay keys vals times n im rm (fnanv A D64) to64 (fzero A D64) (fadd A D64) (fmul A D64)
                           (delta V) (decay_by rate) (zero_of A V) (zero_of A T))
    | NORMAL => floats_of (EmaNormal keys vals times im rm (fnanv A D64) to64 (fzero A D64) (of_int A D64 1) (fadd A D64) (fsub A D64) (fmul A D64)
                            (delta V) negative (decay_by rate) (zero_of A V) (large_negative V) (zero_of A T) ws0)
    | WEIGHTED => floats_of (EmaWeighted keys vals im rm (fnanv A D64) to64 (fzero A D64) (of_int A D64 1) (fadd A D64) (fsub A D64) (fmul A D64)
                              (zero_of A T) rate ws0)
    end.

  (* one column, Ema.cpp:2464-2510 and 2253-2311: None is returned for it if there is no function.
     The work space of a negative size, or of one in bytes that overflows (taken for 16 bytes), cannot be had and is used all the same.
     An output of a smaller type than the function writes is overrun *)
  Definition one_column (fo : option efun) (keys : list Z) (times : option (Z * list (num F))) (im rm : option (list bool)) (rate : F) (n : Z) (i : info)
    : outcome (option (Z * list (option (num F)))) :=
    let timeType := match times with Some (d, _) => ty_of d | None => Other end in
    let V := match times with Some (d, _) => match stored d with Some V => V | None => D64 end | None => D64 end in
    let ts := match times with Some (_, l) => l | None => [] end in
    match fo with
    | None => Done None
    | Some f =>
        match GetEmaByFunction f (ty_of (i_dtype i)) timeType with
        | None => Done None
        | Some (o, u) =>
            let out := out_num f (i_dtype i) o in
            if (n <? -1) || (2 ^ 63 <=? (n + 1) * 16) then Undefined
            else if negb (ty_eqb o u) && negb (length keys =? 0)%nat then Undefined
            else match f, stored (i_dtype i), stored out with
                 | FINDNTH, _, _ => obind (undef (run_kernel FINDNTH D64 D64 D64 keys [] [] im rm rate n)) (fun r => Done (Some (out, r)))
                 | _, Some T, Some U => obind (undef (run_kernel f T U V keys (i_vals i) ts im rm rate n)) (fun r => Done (Some (out, r)))
                 | _, _, _ => Undefined
                 end
        end
    end.

  (* Ema.cpp:2410-2421: a mask; an object that is no array sets an error (2375-2400) and is then read as if it were one *)
  Definition check_mask (len : Z) (p : param bool) : outcome (option (arg bool)) :=
    match p with
    | PNone => Done None
    | POther => Undefined
    | PArray a => if negb (a_dtype a =? 0) || negb (a_len a =? len) then Error else Done (Some a)
    end.
  (* Ema.cpp:2422-2427 *)
  Definition check_time (len : Z) (p : param (num F)) : outcome (option (arg (num F))) :=
    match p with
    | PNone => Done None
    | POther => Undefined
    | PArray a => if (a_dtype a <? 5) || (13 <? a_dtype a) || negb (a_len a =? len) then Error else Done (Some a)
    end.
  Definition read_opt {X} (o : option (arg X)) : outcome (option (list X)) :=
    match o with None => Done None | Some a => obind (undef (read_arg a)) (fun l => Done (Some l)) end.

  (* the tuple of parameters; another object, or a tuple of another size; the number is None if it is not one *)
  Inductive params := PTuple (rate : option F) (time : param (num F)) (include reset : param bool) | PWrong.
  Definition int64_ok (z : Z) : bool := (- 2 ^ 63 <=? z) && (z <? 2 ^ 63).

  (* Ema.cpp:2323-2540.  Without columns the structure is written into a block of no bytes (2444-2456) *)
  Definition EmaAll32 (cols : list (object F)) (key : keyarg) (unique func : Z) (ps : params) : outcome (list (option (Z * list (option (num F))))) :=
    if negb (int64_ok unique && int64_ok func) then Error
    else match ps with
    | PTuple (Some rate) time include reset =>
        if negb (existsb (Z.eqb (k_dtype key)) [1; 3; 5; 7; 9]) then Error
        else
          obind (check_mask (k_len key) reset) (fun rm =>
          obind (check_mask (k_len key) include) (fun im =>
          obind (check_time (k_len key) time) (fun tm =>
          obind (BuildArrayInfo cols) (fun infos =>
          match infos with
          | [] => Undefined
          | _ =>
              obind (undef (read_key key)) (fun keys =>
              obind (read_opt rm) (fun rms =>
              obind (read_opt im) (fun ims =>
              obind (read_opt tm) (fun tms =>
              each (one_column (efun_of func) keys (option_map (fun l => (match tm with Some a => a_dtype a | None => -1 end, l)) tms) ims rms rate unique) infos))))
          end))))
    | _ => Error
    end.
End Ea.
Arguments params F : clear implicits.
Arguments PTuple {F} rate time include reset.
Arguments PWrong {F}.
