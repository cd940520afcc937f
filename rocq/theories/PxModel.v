(** Model of GroupByAllPack32 of /repo/src/GroupBy.cpp from its arguments to its results: the checks of the arguments, the choice of the function
    for the type of each column, the arrays for the results, the one column whose bins are divided among the threads, and the calls.
    The functions themselves are those of GrpxModel and HeapGrpModel, the numbers and the arguments those of AllModel.
    Simplified: memory for arrays can always be had (an impossible size is an error); the columns of one call are computed one after the other;
    interrupts, reference counts and messages are left out; signed differences and rolling sums that overflow wrap around; a long double is made
    a double before it is added to a double; items of text of 0 bytes are not modelled. *)
From Verif Require Import Base Mem GrpxModel HeapModel HeapGrpModel AllModel.
Local Open Scope Z_scope.

(** ** The table *)
(* the C types: bool, the numbers, and text of any number of bytes (char, flexible_t) *)
Inductive xtype := XBool | XNum (c : ctype) | XText.
Inductive xname := XFirst | XNth | XLast | XMedian | XMode | XQuantile | XTrim | XMedianString
  | XRSum | XRNanSum | XRDiff | XRShift | XRCount | XRMean | XRNanMean | XRQuantile.
(* GroupByBase<T, U, V>::name *)
Record xkernel := mkX { x_name : xname; x_T : xtype; x_U : xtype }.

(* GroupBy.cpp:2447-2467 GetXFunc, with the numbers of GroupBy.h:24-44 *)
Definition GetXFunc (func : Z) : option xname :=
  match func with 100 => Some XFirst | 101 => Some XNth | 102 => Some XLast | 103 => Some XMedian | 104 => Some XMode | 106 => Some XQuantile | _ => None end.
(* GroupBy.cpp:2420-2444 *)
Definition GetXFunc2 (func : Z) : option xname :=
  match func with
  | 200 => Some XRSum | 201 => Some XRNanSum | 202 => Some XRDiff | 203 => Some XRShift | 204 => Some XRCount | 205 => Some XRMean
  | 206 => Some XRNanMean | 207 => Some XRQuantile | _ => None
  end.
(* GroupBy.cpp:2469-2494; the functions for text are those for numbers with an item as the value and zero bytes as the invalid value *)
Definition GetXFuncString (func : Z) : option xname :=
  match func with 100 => Some XFirst | 101 => Some XNth | 102 => Some XLast | 103 => Some XMedianString | _ => None end.

Definition with_types (n : option xname) (T U : xtype) (out : Z) : option (xkernel * Z) :=
  match n with Some x => Some (mkX x T U, out) | None => None end.
(* the types of numbers in the switches below *)
Definition number (d : Z) : option ctype := if d =? 0 then None else stored d.
Definition is_text (d : Z) : bool := existsb (Z.eqb d) [18; 19; 20].

(* GroupBy.cpp:3722-3991: the function and the type of the output *)
Definition GetGroupByXFunction (d func : Z) : option (xkernel * Z) :=
  if func =? 105 then
    match d with
    | 0 => with_types (Some XTrim) XBool (XNum (CF 4)) 11
    | 11 => with_types (Some XTrim) (XNum (CF 4)) (XNum (CF 4)) 11
    | _ => match number d with Some c => with_types (Some XTrim) (XNum c) (XNum (CF 8)) 12 | None => None end
    end
  else if func =? 106 then
    match d with
    | 0 => with_types (GetXFunc func) XBool XBool 0
    | 11 => with_types (GetXFunc func) (XNum (CF 4)) (XNum (CF 4)) 11
    | 13 => with_types (GetXFunc func) (XNum (CF 16)) (XNum (CF 16)) 13
    | _ => match number d with Some c => with_types (GetXFunc func) (XNum c) (XNum (CF 8)) 12 | None => None end
    end
  else if func =? 204 then
    match number d with Some (CI b) => with_types (GetXFunc2 func) (XNum (CI b)) (XNum (CI 4)) 5 | _ => None end
  else if func =? 202 then
    match number d with Some c => with_types (GetXFunc2 func) (XNum c) (XNum c) d | None => None end
  else if func =? 203 then
    if d =? 0 then with_types (Some XRShift) XBool XBool 0
    else if is_text d then with_types (Some XRShift) XText XText d
    else match number d with Some c => with_types (Some XRShift) (XNum c) (XNum c) d | None => None end
  else if 200 <=? func then
    if (func =? 205) || (func =? 206) || (func =? 207) then
      match number d with Some c => with_types (GetXFunc2 func) (XNum c) (XNum (CF 8)) 12 | None => None end
    else
      match d with
      | 0 => with_types (GetXFunc2 func) (XNum (CI 1)) (XNum (CI 8)) 7
      | _ => match number d with
             | Some (CF b) => with_types (GetXFunc2 func) (XNum (CF b)) (XNum (CF b)) d
             | Some c => with_types (GetXFunc2 func) (XNum c) (XNum (CI 8)) 7
             | None => None
             end
      end
  else
    if d =? 0 then with_types (GetXFunc func) XBool XBool 0
    else if is_text d then with_types (GetXFuncString func) XText XText d
    else match number d with Some c => with_types (GetXFunc func) (XNum c) (XNum c) d | None => None end.

(* whether an array of this type can be read or written with the type: bool arrays are also read as int8 *)
Definition x_typed (d : Z) (T : xtype) : bool :=
  match T with XBool => d =? 0 | XNum c => typed d c | XText => is_text d end.

Section Px.
  Context {F : Type} (A : arith F).
  Notation num := (num F).
  (* what the machine adds: whether there are threads, their number, the order in which their writes reach memory, std::nth_element,
     ntrimbad (GroupBy.cpp:130-162), the conversion of a double to an integer, the result of a sum that overflows in a rolling quantile,
     what the work space of the rolling quantile holds, and the contents of memory that is not initialised *)
  Record xmachine := mkXM {
    x_threads : bool; x_cores : Z; x_ord : sched; x_nth : (num -> num -> bool) -> list num -> nat -> list num; x_ntrim : nat -> nat;
    x_trunc : F -> Z; x_over : num; x_left : Z -> Z -> mem num; x_junk : nat -> Z -> num }.
  Context (m : xmachine).

  (** ** The operations of the types *)
  (* missing_values.h *)
  Definition x_inv (U : xtype) : num := match U with XNum c => inval A c | _ => I 0 end.
  Definition x_ok (T : xtype) (v : num) : bool := match T with XNum c => ok A c v | _ => true end.
  Definition x_conv (U : xtype) (v : num) : num :=
    match U with XBool => I (if zval v =? 0 then 0 else 1) | XNum c => conv A c v | XText => v end.
  (* <, ==, <= of the type; == is false for NaN *)
  Definition x_lt (T : xtype) (a b : num) : bool := match T with XNum c => less A c a b | _ => zval a <? zval b end.
  Definition x_num (T : xtype) (v : num) : bool := match T with XNum (CF _) => negb (isnan A (fval A v)) | _ => true end.
  Definition x_eq (T : xtype) (a b : num) : bool := x_num T a && x_num T b && negb (x_lt T a b) && negb (x_lt T b a).
  Definition x_le (T : xtype) (a b : num) : bool := x_lt T a b || x_eq T a b.
  (* Sort.cpp:78-97 *)
  Definition x_compare (T : xtype) (a b : num) : bool :=
    match T with XNum (CF _) => x_lt T a b || (negb (x_ok T b) && x_ok T a) | _ => x_lt T a b end.

  (* GroupBy.cpp:26-73 *)
  Definition MEDIAN_SPLIT (T : xtype) (x y : num) : option num :=
    match T with
    | XBool => Some (I (Z.lor (zval x) (zval y)))
    | XNum (CI b) => option_map I (MEDIAN_SPLIT_signed (8 * b) (zval x) (zval y))
    | XNum (CU b) => option_map I (MEDIAN_SPLIT_unsigned (8 * b) (zval x) (zval y))
    | XNum (CF b) => Some (R (fdivn A (CF b) (fadd A (CF b) (fval A x) (fval A y)) 2))
    | XText => None
    end.
  (* GroupBy.cpp:75-98 *)
  Definition QUANTILE_SPLIT (T : xtype) (x y : num) : option num :=
    let half s := R (fdivn A (CF 8) (of_int A (CF 8) s) 2) in
    match T with
    | XBool => Some (I (Z.lor (zval x) (zval y)))
    | XNum (CI b) => option_map half (QUANTILE_SPLIT2_signed (8 * b) (zval x) (zval y))
    | XNum (CU b) => option_map half (QUANTILE_SPLIT2_unsigned (8 * b) (zval x) (zval y))
    | XNum (CF b) => Some (R (fdivn A (CF b) (fadd A (CF b) (fval A x) (fval A y)) 2))
    | XText => None
    end.
  (* the rolling quantile of a float32, a double or a long double is stored as a double *)
  Definition roll_split (T : xtype) (x y : num) : num :=
    match QUANTILE_SPLIT T x y with Some v => conv A (CF 8) v | None => x_over m end.

  (* GroupBy.cpp:2206-2222: the parameter of the quantile; doubles hold it exactly *)
  Definition nan_quantile (param : Z) : bool := 10 ^ 9 <? param.
  Definition quantile_p (param : Z) : Z := if nan_quantile param then param - (10 ^ 9 + 1) else param.

  (* GroupBy.cpp:2080-2098: double sum; sum += pSort[i] *)
  Definition trim_add (d : F) (x : num) : F := fadd A (CF 8) d (fval A (conv A (CF 8) x)).
  (* (T)(sum / cnt), stored as U; a double that is not zero is true as a bool *)
  Definition trim_cast (T U : xtype) (d : F) (n : Z) : num :=
    let q := fdivn A (CF 8) d n in
    let t := match T with
             | XBool => I (if fltb A q (fzero A (CF 8)) || fltb A (fzero A (CF 8)) q || isnan A q then 1 else 0)
             | XNum (CF b) => R (cast A (CF b) q)
             | XNum c => I (wrapT c (x_trunc m q))
             | XText => I 0
             end in x_conv U t.

  (* addition and subtraction in the type of the output *)
  Definition x_add (U : xtype) (a b : num) : num := match U with XNum c => add A c a b | _ => I 0 end.
  Definition x_sub (U : xtype) (a b : num) : num :=
    match U with XNum (CF b0) => sub A (CF b0) a b | XNum c => I (wrapT c (zval a - zval b)) | _ => I 0 end.
  Definition x_div (U : xtype) (a : num) (n : Z) : num := match U with XNum c => divn A c a n | _ => I 0 end.
  Definition x_zero (U : xtype) : num := match U with XNum c => zero_of A c | _ => I 0 end.

  (* the call of the function for the bins low .. high-1: its writes.  [w]: bits of the type of group, first and count *)
  Definition x_call (k : xkernel) (w param : Z) (src : list num) (group first count : list Z) : Z -> Z -> option (list (Z * num)) :=
    let T := x_T k in let U := x_U k in
    match x_name k with
    | XFirst => xcall (AccumFirst src group first count (x_inv U) (x_conv U))
    | XNth => xcall (AccumNth src group first count (x_inv U) (x_conv U) param)
    | XLast => xcall (AccumLast src group first count (x_inv U) (x_conv U))
    | XMedian => xcall (AccumMedian src group first count (x_inv U) (x_conv U) (quick (x_compare T)) (x_eq T) (MEDIAN_SPLIT T))
    | XMode => xcall (AccumMode src group first count (x_inv U) (x_conv U) (quick (x_compare T)) (x_eq T))
    | XQuantile => xcall (AccumQuantile1e9Mult src group first count (x_inv U) (x_conv U) (x_ok T) (x_lt T) (x_nth m (x_lt T)) (QUANTILE_SPLIT T)
                            (nan_quantile param) (q_down (quantile_p param)) (q_up (quantile_p param)))
    | XTrim => xcall (AccumTrimMeanBR src group first count (x_inv U) (x_ok T) (x_le T) (x_nth m (x_lt T)) (x_ntrim m) (fzero A (CF 8)) trim_add (trim_cast T U))
    | XMedianString => xcall (fun i => Some [(i, I 0)])                         (* GroupBy.cpp:2397-2417 *)
    | XRSum => AccumRollingSum w src group first count (x_inv U) (x_conv U) (x_zero U) (x_add U) (x_sub U) param
    | XRNanSum => AccumRollingNanSum w src group first count (x_inv U) (x_conv U) (x_zero U) (x_add U) (x_sub U) (x_ok T) param
    | XRMean => AccumRollingMean w src group first count (x_inv U) (x_conv U) (x_zero U) (x_add U) (x_sub U) (x_div U) param
    | XRNanMean => AccumRollingNanMean w src group first count (x_inv U) (x_conv U) (x_zero U) (x_add U) (x_sub U) (x_div U) (x_ok T) param
    | XRCount => AccumRollingCount group first count (x_inv U) (fun z => x_conv U (I z)) param
    | XRShift => AccumRollingShift w src group first count (x_inv U) (x_conv U) param
    | XRDiff => AccumRollingDiff w src group first count (x_inv U) (x_conv U) (x_sub U) param
    | XRQuantile => AccumRollingQuantile1e9Mult src group first count (x_lt T) (x_ok T) (x_inv U) (x_conv U) (roll_split T) (x_left m (Z.quot param (MULT + 1))) param
    end.

  (** ** The arguments *)
  (* a column and the size of its items; None: the column was None, there is no array *)
  Record xinfo := mkXI { xi_info : info (F := F); xi_item : option Z }.
  Definition item_of (o : object F) : option Z := match o with OArray c => Some (c_item c) | _ => None end.
  (* MultiKey.cpp:145-324 *)
  Definition build_infos (cols : list (object F)) : outcome (list xinfo) :=
    obind (BuildArrayInfo cols) (fun l => Done (map (fun p => mkXI (fst p) (snd p)) (combine l (map item_of cols)))).

  (* CommonInc.h:110-117 CASE_NPY_INT32, CASE_NPY_INT64: the bits of the elements of iGroup, iFirst and nCount *)
  Definition index_bits (d : Z) : option Z := match d with 5 => Some 32 | 7 | 9 => Some 64 | _ => None end.

  Definition x_array (id : nat) (n : Z) : list num := map (x_junk m id) (map Z.of_nat (seq 0 (Z.to_nat n))).

  (* the size of the items of an array that is allocated without naming one: RipTide.cpp:667-675; numbers have the size of their type *)
  Definition default_item (d item : Z) : Z := if is_text d then 1 else item.
  (* RipTide.cpp:849-875: only STRING and UNICODE keep the size of the items *)
  Definition like_resize_item (d item : Z) : Z := if (d =? 18) || (d =? 19) then item else default_item d item.

  Record xtask := mkXT { xt_info : xinfo; xt_kernel : xkernel; xt_out : Z; xt_item : Z; xt_len : Z; xt_low : Z; xt_high : Z; xt_id : nat }.

  (* GroupBy.cpp:5000-5105: the preparation of column i *)
  Definition x_prepare (rows unique_rows : Z) (funcs lows highs : list Z) (ii : nat * xinfo) : outcome xtask :=
    let i := snd ii in let d := i_dtype (xi_info i) in
    match nth_error funcs (fst ii), nth_error lows (fst ii), nth_error highs (fst ii) with
    | Some fn, Some lo, Some hi =>
        let func := as_func fn in
        match GetGroupByXFunction d func with
        | Some (k, out) =>
            let item := match xi_item i with Some b => b | None => 0 end in
            let task out_item len := mkXT i k out out_item len (as_int64 lo) (as_int64 hi) (fst ii) in
            if (func =? 105) || (func =? 106) then if unique_rows <? 0 then Error else Done (task (default_item out item) unique_rows)
            else if 200 <=? func then
              if negb (Z.of_nat (length (i_vals (xi_info i))) =? rows) then Error
              else match xi_item i with None => Undefined | Some b => Done (task b rows) end
            else match xi_item i with
                 | None => Undefined
                 | Some b => if unique_rows <? 0 then Error else Done (task (like_resize_item d b) unique_rows)
                 end
        | None => Error
        end
    | _, _, _ => Undefined
    end.

  (* whether the function may be called on these arrays: the types fit, and the items written are not larger than those of the output *)
  Definition x_fits (i : xinfo) (k : xkernel) (out out_item : Z) : bool :=
    x_typed (i_dtype (xi_info i)) (x_T k) && x_typed out (x_U k) &&
    match x_T k, xi_item i with XText, Some b => b <=? out_item | XText, None => false | _, _ => true end.

  (* GroupBy.cpp:4099-4170 *)
  Definition x_group_by_call (w param : Z) (group first count : list Z) (t : xtask) : outcome (Z * list num) :=
    if negb (x_fits (xt_info t) (xt_kernel t) (xt_out t) (xt_item t)) then Undefined
    else obind (undef (GroupByX (x_call (xt_kernel t) w param (i_vals (xi_info (xt_info t))) group first count) (xt_low t) (xt_high t)
                                (x_array (xt_id t) (xt_len t)))) (fun r => Done (xt_out t, r)).

  (* GroupBy.cpp:4242-4392; None: nothing was done *)
  Definition multi_bands (i : xinfo) (w param : Z) (group first count : list Z) (func unique_rows low high : Z) : outcome (option (list (Z * list num))) :=
    let d := i_dtype (xi_info i) in
    match GetGroupByXFunction d func with
    | None => Done None
    | Some (k, out) =>
        let cores := if high - low <? x_cores m then high - low else x_cores m in
        if x_threads m && (0 <? cores) then
          if unique_rows <? 0 then Error
          else if negb (x_fits i k out (default_item out 0)) then Undefined
          else obind (undef (BandedGroupBy (x_ord m) (x_call k w param (i_vals (xi_info i)) group first count) cores unique_rows (x_array 0 unique_rows)))
                     (fun r => Done (Some [(out, r)]))
        else Done None
    end.

  (* GroupBy.cpp:4871-5130.  Of iKey only the length is used.  The result: the type and the elements of every array *)
  Definition PyGroupByAllPack32 (cols : list (object F)) (key_len : Z) (group first count : keyarg) (unique : Z) (funcs lows highs : list Z) (param : Z)
    : outcome (list (Z * list num)) :=
    if negb (k_dtype group =? k_dtype first) || negb (k_dtype group =? k_dtype count) then Error
    else match index_bits (k_dtype group) with
    | None => Error
    | Some w =>
      if negb (unique <? 2 ^ 63 - 1) then Undefined                                     (* signed overflow *)
      else
      let unique_rows := unique + 1 in
      obind (build_infos cols) (fun infos =>
      if negb (length infos =? length funcs)%nat then Error
      else if negb (length infos =? length lows)%nat then Error
      else match infos with
      | [] => Undefined                        (* the length of the first column is read from memory that is not initialised *)
      | i0 :: rest =>
          if negb (Z.of_nat (length (i_vals (xi_info i0))) =? key_len) then Error
          else
          obind (undef (read_key group)) (fun g => obind (undef (read_key first)) (fun f => obind (undef (read_key count)) (fun c =>
            let func := as_func (hd 0 funcs) in
            obind (match rest with
                   | [] => if 65536 <? key_len then
                             match highs with
                             | [] => Undefined
                             | hi :: _ => if ((103 <=? func) && (func <=? 105)) || (func =? 106)
                                          then multi_bands i0 w param g f c func unique_rows (as_int64 (hd 0 lows)) (as_int64 hi) else Done None
                             end
                           else Done None
                   | _ => Done None
                   end) (fun done =>
            match done with
            | Some res => Done res
            | None => obind (each (x_prepare key_len unique_rows funcs lows highs) (combine (seq 0 (length infos)) infos)) (fun ts =>
                      each (x_group_by_call w param g f c) ts)
            end))))
      end)
    end.
End Px.
Arguments xmachine F : clear implicits.
