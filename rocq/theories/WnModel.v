(** Model of TimeWindow of /repo/src/TimeWindow.cpp and Rolling of /repo/src/Ema.cpp from their arguments to their results: the checks of the
    arguments, the choice of the function for the type of the array and the call.  The functions themselves are those of CalcModel, RollModel and
    HeapModel, the numbers and the arrays those of AllModel and EaModel.
    Simplified: arrays have one dimension; memory can always be had; sums and products of integers that overflow wrap around; the variances and
    standard deviations of Rolling are a parameter (RollModel has them over exact numbers).  No proofs in this file. *)
From Verif Require Import Base Mem AllModel EaModel.
From Verif Require RollModel CalcModel HeapModel GrpxModel.
Local Open Scope Z_scope.

(** ** The tables *)
Inductive wfun := WSum | WProd.
(* TimeWindow.cpp:89-99, with the numbers of 10-14 *)
Definition window_fun (func : Z) : option wfun := match func with 0 => Some WSum | 1 => Some WProd | _ => None end.
(* TimeWindow.cpp:102-147: T, U and the type number of the output *)
Definition window_type (d : Z) : option (ctype * ctype * Z) :=
  match d with
  | 0 => Some (CI 1, CI 8, 7)
  | 11 => Some (CF 4, CF 4, 11) | 12 => Some (CF 8, CF 8, 12) | 13 => Some (CF 16, CF 16, 13)
  | 1 => Some (CI 1, CI 8, 7) | 3 => Some (CI 2, CI 8, 7) | 5 => Some (CI 4, CI 8, 7) | 7 | 9 => Some (CI 8, CI 8, 7)
  | 2 => Some (CU 1, CU 8, 8) | 4 => Some (CU 2, CU 8, 8) | 6 => Some (CU 4, CU 8, 8) | 8 | 10 => Some (CU 8, CU 8, 8)
  | _ => None
  end.

Inductive rfun := RSum | RNanSum | RMean | RNanMean | RQuantile | RVar | RNanVar | RStd | RNanStd.
(* Ema.cpp:575-585, with the numbers of Ema.h:6-20 *)
Definition rolling_fun (func : Z) : option rfun := match func with 0 => Some RSum | 1 => Some RNanSum | _ => None end.
(* Ema.cpp:587-607 *)
Definition rolling_fun2 (func : Z) : option rfun :=
  match func with
  | 102 => Some RMean | 103 => Some RNanMean | 104 => Some RQuantile | 106 => Some RVar | 107 => Some RNanVar | 108 => Some RStd | 109 => Some RNanStd
  | _ => None
  end.
(* Ema.cpp:610-643: T and U *)
Definition rolling_types (d : Z) : option (ctype * ctype) :=
  match d with
  | 0 => Some (CI 1, CI 8)
  | 11 => Some (CF 4, CF 4) | 12 => Some (CF 8, CF 8) | 13 => Some (CF 16, CF 16)
  | 1 => Some (CI 1, CI 8) | 3 => Some (CI 2, CI 8) | 5 => Some (CI 4, CI 8) | 6 => Some (CU 4, CI 8) | 7 | 9 => Some (CI 8, CI 8)
  | 2 => Some (CU 1, CI 8) | 4 => Some (CU 2, CI 8) | 8 | 10 => Some (CU 8, CI 8)
  | _ => None
  end.
(* Ema.cpp:645-678 *)
Definition rolling_types2 (d : Z) : option (ctype * ctype) :=
  match d with
  | 0 => Some (CI 1, CF 8)
  | 11 => Some (CF 4, CF 4) | 12 => Some (CF 8, CF 8) | 13 => Some (CF 16, CF 16)
  | 1 => Some (CI 1, CF 8) | 3 => Some (CI 2, CF 8) | 5 => Some (CI 4, CF 8) | 6 => Some (CU 4, CF 8) | 7 | 9 => Some (CI 8, CF 8)
  | 2 => Some (CU 1, CF 8) | 4 => Some (CU 2, CF 8) | 8 | 10 => Some (CU 8, CF 8)
  | _ => None
  end.
(* Ema.cpp:733-749 *)
Definition rolling_out (d : Z) : Z := if d =? 13 then 13 else if d =? 12 then 12 else if d =? 11 then 11 else 7.
(* Ema.cpp:714-728 *)
Definition rolling_out2 (d : Z) : Z := if d =? 13 then 13 else if d =? 11 then 11 else 12.

(* an array of type number d holds elements of this C type *)
Definition holds_type (d : Z) (T : ctype) : bool := match stored d with Some T1 => ctype_eqb T1 T | None => false end.

(* RipTide.cpp:242-258: an array with gaps is copied; NumPy calls an array of at most one element contiguous *)
Definition contiguous {X} (a : arg X) : bool := (a_step a =? 1) || (a_len a <=? 1).
Definition copy_arg {X} (a : arg X) : option (list X) :=
  Par.all_some (map (fun i => zrd (a_mem a) (a_start a + Z.of_nat i * a_step a)) (seq 0 (Z.to_nat (a_len a)))).
Definition read_ensured {X} (a : arg X) : option (list X) := if contiguous a then read_arg a else copy_arg a.

Section Wn.
  Context {F : Type} (A : arith F).

  (** ** TimeWindow *)
  (* TimeWindow.cpp:35-54 and 66-85: the first value is converted to U; the others are combined with it in U *)
  Definition window_op (f : wfun) (U : ctype) (s x : num F) : num F :=
    match f with WSum => add A U s (conv A U x) | WProd => prod A U s (conv A U x) end.
  (* TimeWindow.cpp:158-248.  Only the addresses of the first elements are passed on.  None in the result: the object None *)
  Definition TimeWindow (ord : sched) (threads : bool) (a : arg (num F)) (t : arg Z) (func delta : Z) : outcome (option (Z * list (num F))) :=
    if negb (int64_ok func && int64_ok delta) then Error
    else if negb (a_len a =? a_len t) then Error
    else if negb ((a_dtype t =? 7) || (a_dtype t =? 9)) then Error
    else match window_type (a_dtype a), window_fun func with
    | Some (T, U, out), Some f =>
        if holds_type (a_dtype a) T && holds_type out U then
          obind (undef (read_arg a)) (fun vals =>
          obind (undef (read_arg t)) (fun times =>
          obind (undef (CalcModel.TimeWindow (conv A U) (window_op f U) ord threads vals times delta (zero_of A U))) (fun r => Done (Some (out, r)))))
        else Undefined
    | _, _ => Done None
    end.

  (** ** Rolling *)
  (* the functions 106 to 109 *)
  Context (variance : rfun -> ctype -> ctype -> Z -> list (num F) -> outcome (list (num F))).
  (* the sum of two int64 or of two uint64 or int32 items that overflows *)
  Context (over : num F).
  (* Ema.cpp:114: subtraction in U *)
  Definition minus (U : ctype) (a b : num F) : num F :=
    match U with CF _ => sub A U a b | _ => I (wrapT U (zval a - zval b)) end.
  (* temp == temp *)
  Definition is_itself (T : ctype) (v : num F) : bool := match T with CF _ => negb (isnan A (fval A v)) | _ => true end.
  (* Ema.cpp:21-45: X + Y is computed in int for the small types, then halved as a double (as a float or long double for these) *)
  Definition split (T U : ctype) (x y : num F) : num F :=
    let half s := R (fdivn A D64 (of_int A D64 s) 2) in
    match T with
    | CF b => R (cast A U (fdivn A (CF b) (fadd A (CF b) (fval A x) (fval A y)) 2))
    | CI b => match GrpxModel.QUANTILE_SPLIT2_signed (8 * b) (zval x) (zval y) with Some s => half s | None => over end
    | CU b => match GrpxModel.QUANTILE_SPLIT2_unsigned (8 * b) (zval x) (zval y) with Some s => half s | None => over end
    end.
  (* the call, Ema.cpp:757.  RollingQuantile sets an error for a window that is not positive; it is raised although an array is returned *)
  Definition rolling_call (f : rfun) (T U : ctype) (win : Z) (l : list (num F)) : outcome (list (num F)) :=
    match f with
    | RSum => undef (RollModel.RollingSum (conv A U) (zero_of A U) (add A U) (minus U) win l)
    | RNanSum => undef (RollModel.RollingNanSum (conv A U) (zero_of A U) (add A U) (minus U) (ok A T) win l)
    | RMean => undef (RollModel.RollingMean (conv A U) (zero_of A U) (add A U) (minus U) (divn A U) win l)
    | RNanMean => undef (RollModel.RollingNanMean (conv A U) (zero_of A U) (add A U) (minus U) (divn A U) (is_itself T) win l)
    | RQuantile => match HeapModel.RollingQuantile (less A T) (ok A T) (inval A U) (conv A U) (split T U) win l with
                   | HeapModel.QOk r => Done r
                   | HeapModel.QError => Error
                   | HeapModel.QUndefined => Undefined
                   end
    | _ => variance f T U win l
    end.
  (* Ema.cpp:687-769 *)
  Definition Rolling (a : arg (num F)) (func win : Z) : outcome (option (Z * list (num F))) :=
    if negb (int64_ok func && int64_ok win) then Error
    else
      let d := a_dtype a in
      let '(f, types, out) := if 100 <=? func then (rolling_fun2 func, rolling_types2 d, rolling_out2 d) else (rolling_fun func, rolling_types d, rolling_out d) in
      match f, types with
      | Some f, Some (T, U) =>
          if holds_type d T && holds_type out U then
            obind (undef (read_ensured a)) (fun l => obind (rolling_call f T U win l) (fun r => Done (Some (out, r))))
          else Undefined
      | _, _ => Done None
      end.
End Wn.
