(** Model of GroupByAll32 of /repo/src/GroupBy.cpp: the checks of its arguments, the choice of the function for the type of each column,
    the arrays for results, counts and work, the one column that is scattered over the threads, and the calls.
    The functions themselves are those of AccumModel and VarModel.
    Simplified: memory for arrays can always be had (an impossible size is an error); the columns of one call are computed one after the other
    (each thread has the arrays of its column for itself); reference counts and messages are left out. *)
From Verif Require Import Base Mem AccumModel VarModel.
Local Open Scope Z_scope.

(** ** C types and NumPy types *)
(* the number of bytes *)
Inductive ctype := CI (b : Z) | CU (b : Z) | CF (b : Z).
Definition ctype_eqb (x y : ctype) : bool :=
  match x, y with CI a, CI b | CU a, CU b | CF a, CF b => a =? b | _, _ => false end.

(* NumPy's type numbers, CommonInc.h:110-117: int64 is 7 and 9, uint64 is 8 and 10.  How the elements of an array are stored *)
Definition stored (dtype : Z) : option ctype :=
  match dtype with
  | 0 => Some (CI 1) | 1 => Some (CI 1) | 2 => Some (CU 1) | 3 => Some (CI 2) | 4 => Some (CU 2) | 5 => Some (CI 4) | 6 => Some (CU 4)
  | 7 => Some (CI 8) | 8 => Some (CU 8) | 9 => Some (CI 8) | 10 => Some (CU 8) | 11 => Some (CF 4) | 12 => Some (CF 8) | 13 => Some (CF 16)
  | _ => None
  end.

(** ** The tables *)
Inductive kname := KSum | KSumFloat | KNanSum | KNanSumFloat | KMin | KNanMin | KMax | KNanMax | KMean | KMeanFloat | KNanMean | KNanMeanFloat
  | KVar | KNanVar | KStd | KNanStd.
(* GroupByBase<T, U, V, W>::name *)
Record kernel := mkK { k_name : kname; k_T : ctype; k_U : ctype }.
Record found := mkFound { f_kernel : kernel; f_out : Z; f_counts : bool; f_tmp : bool }.

(* the cases of GetGroupByFunction in the order of the source *)
Inductive gbcase := BSum | BNanSum | BMin | BNanMin | BMax | BNanMax | BMean | BNanMean | BVar | BNanVar | BStd | BNanStd.
Definition cases : list gbcase := [BSum; BNanSum; BMin; BNanMin; BMax; BNanMax; BMean; BNanMean; BVar; BNanVar; BStd; BNanStd].
(* GroupBy.h:6-22 *)
Definition case_num (c : gbcase) : Z :=
  match c with
  | BSum => 0 | BMean => 1 | BMin => 2 | BMax => 3 | BVar => 4 | BStd => 5
  | BNanSum => 50 | BNanMean => 51 | BNanMin => 52 | BNanMax => 53 | BNanVar => 54 | BNanStd => 55
  end.
(* whether the case begins with *hasCounts = true *)
Definition sets_counts (c : gbcase) : bool := match c with BNanSum => false | _ => true end.

Definition ent (k : kname) (T U : ctype) (out : Z) (tmp : bool) : option (kernel * Z * bool * bool) := Some (mkK k T U, out, tmp, false).
Definition ent_nc (k : kname) (T U : ctype) (out : Z) : option (kernel * Z * bool * bool) := Some (mkK k T U, out, false, true).

(* GroupBy.cpp:3153-3198 and 3200-3243: sum and nansum *)
Definition sum_table (k kf : kname) (d : Z) : option (kernel * Z * bool * bool) :=
  match d with
  | 0 => ent k (CI 1) (CI 8) 7 false
  | 11 => ent kf (CF 4) (CF 4) 11 true
  | 12 => ent k (CF 8) (CF 8) 12 false
  | 13 => ent k (CF 16) (CF 16) 13 false
  | 1 => ent k (CI 1) (CI 8) 7 false
  | 3 => ent k (CI 2) (CI 8) 7 false
  | 5 => ent k (CI 4) (CI 8) 7 false
  | 7 | 9 => ent k (CI 8) (CI 8) 7 false
  | 2 => ent k (CU 1) (CU 8) 8 false
  | 4 => ent k (CU 2) (CU 8) 8 false
  | 6 => ent k (CU 4) (CU 8) 8 false
  | 8 | 10 => ent k (CU 8) (CU 8) 8 false
  | _ => None
  end.
(* GroupBy.cpp:3245-3287 and 3336-3378: min and max; 3289-3334 (nanmin) and 3380-3422 (nanmax) with [kb] for bool;
   nanmin resets *hasCounts for the floating point types *)
Definition min_table (k kb : kname) (nc : bool) (d : Z) : option (kernel * Z * bool * bool) :=
  match d with
  | 0 => ent kb (CI 1) (CI 1) 0 false
  | 11 => if nc then ent_nc k (CF 4) (CF 4) 11 else ent k (CF 4) (CF 4) 11 false
  | 12 => if nc then ent_nc k (CF 8) (CF 8) 12 else ent k (CF 8) (CF 8) 12 false
  | 13 => if nc then ent_nc k (CF 16) (CF 16) 13 else ent k (CF 16) (CF 16) 13 false
  | 1 => ent k (CI 1) (CI 1) 1 false
  | 3 => ent k (CI 2) (CI 2) 3 false
  | 5 => ent k (CI 4) (CI 4) 5 false
  | 7 | 9 => ent k (CI 8) (CI 8) 7 false
  | 2 => ent k (CU 1) (CU 1) 2 false
  | 4 => ent k (CU 2) (CU 2) 4 false
  | 6 => ent k (CU 4) (CU 4) 6 false
  | 8 | 10 => ent k (CU 8) (CU 8) 8 false
  | _ => None
  end.
(* GroupBy.cpp:3424-3467, 3469-3512 (mean, nanmean), 3514-3557, 3559-3602 (var, nanvar), 3604-3647, 3649-3692 (std, nanstd) *)
Definition mean_table (k kf : kname) (d : Z) : option (kernel * Z * bool * bool) :=
  match d with
  | 0 => ent k (CI 1) (CF 8) 12 false
  | 11 => ent kf (CF 4) (CF 4) 11 true
  | 12 => ent k (CF 8) (CF 8) 12 false
  | 13 => ent k (CF 16) (CF 8) 12 false
  | 1 => ent k (CI 1) (CF 8) 12 false
  | 3 => ent k (CI 2) (CF 8) 12 false
  | 5 => ent k (CI 4) (CF 8) 12 false
  | 7 | 9 => ent k (CI 8) (CF 8) 12 false
  | 2 => ent k (CU 1) (CF 8) 12 false
  | 4 => ent k (CU 2) (CF 8) 12 false
  | 6 => ent k (CU 4) (CF 8) 12 false
  | 8 | 10 => ent k (CU 8) (CF 8) 12 false
  | _ => None
  end.
Definition table (c : gbcase) : Z -> option (kernel * Z * bool * bool) :=
  match c with
  | BSum => sum_table KSum KSumFloat | BNanSum => sum_table KNanSum KNanSumFloat
  | BMin => min_table KMin KMin false | BNanMin => min_table KNanMin KMin true
  | BMax => min_table KMax KMax false | BNanMax => min_table KNanMax KMax false
  | BMean => mean_table KMean KMeanFloat | BNanMean => mean_table KNanMean KNanMeanFloat
  | BVar => mean_table KVar KVar | BNanVar => mean_table KNanVar KNanVar
  | BStd => mean_table KStd KStd | BNanStd => mean_table KNanStd KNanStd
  end.
(* a case whose inner switch finds nothing falls through to the next one *)
Fixpoint fall (l : list gbcase) (counts : bool) (d : Z) : option found :=
  match l with
  | [] => None
  | c :: l' =>
      let counts := counts || sets_counts c in
      match table c d with
      | Some (k, out, tmp, reset) => Some (mkFound k out (if reset then false else counts) tmp)
      | None => fall l' counts d
      end
  end.
Fixpoint from_case (func : Z) (l : list gbcase) : list gbcase :=
  match l with [] => [] | c :: l' => if func =? case_num c then l else from_case func l' end.
(* GroupBy.cpp:3144-3698, through GetGroupByFunctionStep1 (4215-4240), which only instantiates the type of the key *)
Definition GetGroupByFunction (func d : Z) : option found := fall (from_case func cases) false d.

(* GroupBy.cpp:2898-3137: the type of the elements the gather function works with *)
Definition gather_type (func out : Z) : option ctype :=
  match func with
  | 0 | 50 => match out with
              | 11 => Some (CF 4) | 12 => Some (CF 8) | 13 => Some (CF 16)
              | 0 | 1 | 3 | 5 | 7 | 9 => Some (CI 8)
              | 2 | 4 | 6 | 8 | 10 => Some (CU 8)
              | _ => None
              end
  | 1 | 51 => match out with
              | 11 => Some (CF 4)
              | 0 | 1 | 2 | 3 | 4 | 5 | 6 | 7 | 8 | 9 | 10 | 12 | 13 => Some (CF 8)
              | _ => None
              end
  | 2 | 3 | 52 | 53 => stored out
  | _ => None
  end.

(** ** Numbers: integers, and floating point numbers with an arithmetic that is a parameter *)
Section All.
  Context {F : Type}.
  Inductive num := I (z : Z) | R (x : F).
  (* zero, NaN, the conversions to a format and the operations of a format *)
  Record arith := mkArith {
    fzero : ctype -> F; fnanv : ctype -> F; isnan : F -> bool; fltb : F -> F -> bool;
    of_int : ctype -> Z -> F; cast : ctype -> F -> F;
    fadd : ctype -> F -> F -> F; fsub : ctype -> F -> F -> F; fmul : ctype -> F -> F -> F;
    fdivn : ctype -> F -> Z -> F; fsqrt : ctype -> F -> F }.
  Context (A : arith).

  Definition zval (v : num) : Z := match v with I z => z | R _ => 0 end.
  Definition fval (v : num) : F := match v with R x => x | I _ => fzero A (CF 8) end.

  (* the value that marks an invalid integer: missing_values.h, the least signed and the greatest unsigned value *)
  Definition int_inv (U : ctype) : Z := match U with CI b => - 2 ^ (8 * b - 1) | CU b => 2 ^ (8 * b) - 1 | CF _ => 0 end.
  Definition wrapT (U : ctype) (z : Z) : Z :=
    match U with CI b => (z + 2 ^ (8 * b - 1)) mod 2 ^ (8 * b) - 2 ^ (8 * b - 1) | CU b => z mod 2 ^ (8 * b) | CF _ => z end.
  Definition ok (U : ctype) (v : num) : bool := match U with CF _ => negb (isnan A (fval v)) | _ => negb (wrapT U (zval v) =? int_inv U) end.
  Definition inval (U : ctype) : num := match U with CF _ => R (fnanv A U) | _ => I (int_inv U) end.
  Definition zero_of (U : ctype) : num := match U with CF _ => R (fzero A U) | _ => I 0 end.
  Definition conv (U : ctype) (v : num) : num :=
    match U with CF _ => R (match v with I z => of_int A U z | R x => cast A U x end) | _ => I (wrapT U (zval v)) end.
  (* a float64 stored as U *)
  Definition narrow (U : ctype) (v : num) : num := R (cast A U (fval v)).
  Definition add (U : ctype) (a b : num) : num := match U with CF _ => R (fadd A U (fval a) (fval b)) | _ => I (wrapT U (zval a + zval b)) end.
  Definition sub (U : ctype) (a b : num) : num := R (fsub A U (fval a) (fval b)).
  Definition mul (U : ctype) (a b : num) : num := R (fmul A U (fval a) (fval b)).
  Definition divn (U : ctype) (a : num) (n : Z) : num := R (fdivn A U (fval a) n).
  Definition sqrt_of (U : ctype) (a : num) : num := R (fsqrt A U (fval a)).
  Definition less (U : ctype) (a b : num) : bool := match U with CF _ => fltb A (fval a) (fval b) | _ => zval a <? zval b end.
  Definition greater (U : ctype) (a b : num) : bool := less U b a.

  (** ** One call of a function, pass -1 (GroupBy.cpp:4099-4150) *)
  Definition D64 : ctype := CF 8.
  Definition tmp_fun_of (k : kname) (T U : ctype) : option (@tmp_fun num num num) :=
    match k with
    | KSumFloat => Some (AccumSumFloat (ok T) (inval U) (conv D64) (narrow U) (add D64))
    | KNanSumFloat => Some (AccumNanSumFloat (ok T) (conv D64) (narrow U) (add D64))
    | KMeanFloat => Some (AccumMeanFloat (ok T) (inval U) (inval D64) (conv D64) (narrow U) (add D64) (divn D64))
    | KNanMeanFloat => Some (AccumNanMeanFloat (ok T) (inval U) (conv D64) (narrow U) (add D64) (divn D64))
    | _ => None
    end.
  Definition acc_fun_of (k : kname) (T U : ctype) : option (acc_fun num num) :=
    match k with
    | KSum => Some (AccumSum (ok T) (inval U) (zero_of U) (conv U) (add U))
    | KNanSum => Some (AccumNanSum (ok T) (zero_of U) (conv U) (add U))
    | KMin => Some (AccumMin (ok T) (inval U) (conv U) (less U))
    | KMax => Some (AccumMin (ok T) (inval U) (conv U) (greater U))
    | KNanMin => Some (AccumNanMin (ok T) (ok U) (inval U) (conv U) (less U))
    | KNanMax => Some (AccumNanMin (ok T) (ok U) (inval U) (conv U) (greater U))
    | KMean => Some (AccumMean (ok T) (inval U) (zero_of U) (conv U) (add U) (divn U))
    | KNanMean => Some (AccumNanMean (ok T) (inval U) (zero_of U) (conv U) (add U) (divn U))
    | _ => None
    end.
  (* GroupBy.cpp:950-951, 970-980: the type of the computation and where the mean is kept depend on the input type *)
  Definition var_of (k : kname) (T U : ctype) : option (Z -> Z -> Z -> list (Z * num) -> list (vcell num num) -> option (list (vcell num num))) :=
    let f := ctype_eqb T (CF 4) in
    let D := if f then D64 else U in
    let p := if f then in_tmp else in_out in
    match k with
    | KVar => Some (AccumVar (ok T) (inval U) (zero_of U) (zero_of D) (conv D) (if f then narrow U else fun x => x) (add D) (sub D) (mul D) (divn D) p)
    | KNanVar => Some (AccumNanVar (ok T) (inval U) (zero_of U) (zero_of D) (conv D) (if f then narrow U else fun x => x) (add D) (sub D) (mul D) (divn D) p)
    | KStd => Some (AccumStd (ok T) (inval U) (zero_of U) (zero_of D) (conv D) (if f then narrow U else fun x => x) (add D) (sub D) (mul D) (divn D) (sqrt_of U) p)
    | KNanStd => Some (AccumNanStd (ok T) (inval U) (zero_of U) (zero_of D) (conv D) (if f then narrow U else fun x => x) (add D) (sub D) (mul D) (divn D) (sqrt_of U) p)
    | _ => None
    end.
  (* whether the function reads or writes the counts; a null pointer if there are none *)
  Definition uses_counts (k : kname) : bool := match k with KNanSum | KNanSumFloat | KNanMin | KNanMax => false | _ => true end.
  Definition uses_tmp (k : kname) (T : ctype) : bool :=
    match k with
    | KSumFloat | KNanSumFloat | KMeanFloat | KNanMeanFloat => true
    | KVar | KNanVar | KStd | KNanStd => ctype_eqb T (CF 4)
    | _ => false
    end.
  (* whether the range is cleared with a memset, whose size is then unsigned *)
  Definition memsets (k : kname) : bool := match k with KMin | KNanMin | KMax | KNanMax => false | _ => true end.

  (* None: undefined behaviour.  [counts], [tmp]: whether the arrays were allocated *)
  Definition call_kernel (k : kernel) (counts tmp : bool) (low high : Z) (rows : list (Z * num)) (out0 tmp0 sq0 : list num) : option (list num) :=
    if (uses_counts (k_name k) && negb counts) || (uses_tmp (k_name k) (k_T k) && negb tmp) || (memsets (k_name k) && (high <? low)) then None
    else match acc_fun_of (k_name k) (k_T k) (k_U k), tmp_fun_of (k_name k) (k_T k) (k_U k), var_of (k_name k) (k_T k) (k_U k) with
         | Some a, _, _ => GroupByOne a low high rows out0
         | _, Some t, _ => GroupByOneFloat (zero_of (k_U k)) (zero_of D64) t low high rows out0 tmp0
         | _, _, Some v => run_var v low high rows out0 tmp0 sq0
         | _, _, _ => None
         end.

  (* the gather function of GetGroupByGatherFunction, GroupBy.cpp:2898-3137 *)
  Definition gather_fun_of (func : Z) (U : ctype) : option (@gather_fun num) :=
    match func with
    | 0 => Some (GatherSum (inval U) (zero_of U) (add U))
    | 50 => Some (GatherNanSum (zero_of U) (add U))
    | 1 => Some (GatherMean (ok U) (inval U) (zero_of U) (add U) (divn U))
    | 51 => Some (GatherNanMean (inval U) (zero_of U) (add U) (divn U))
    | 2 => Some (GatherMin (ok U) (inval U) (less U))
    | 3 => Some (GatherMin (ok U) (inval U) (greater U))
    | 52 => Some (GatherNanMin (ok U) (less U))
    | 53 => Some (GatherNanMin (ok U) (greater U))
    | _ => None
    end.
  (* GatherSum, GatherMean, GatherNanMean, GatherMin and GatherMax read the counts of the cores *)
  Definition gather_counts (func : Z) : bool := match func with 50 | 52 | 53 => false | _ => true end.

  (** ** The arguments *)
  (* an array: type number (-1: above NPY_VOID), dimensions, elements, distance of the elements in bytes, size of an element *)
  Record column := mkCol { c_dtype : Z; c_ndim : Z; c_vals : list num; c_stride : Z; c_item : Z }.
  Inductive object := OArray (c : column) | ONone | OOther.
  (* the key: its elements lie [k_step] elements apart from each other in [k_mem] *)
  Record keyarg := mkKey { k_dtype : Z; k_dims : Z; k_mem : list Z; k_start : Z; k_step : Z; k_len : Z }.
  Inductive outcome (X : Type) := Done (x : X) | Error | Undefined.
  Arguments Done {X} x.
  Arguments Error {X}.
  Arguments Undefined {X}.
  Definition obind {X Y} (o : outcome X) (f : X -> outcome Y) : outcome Y :=
    match o with Done x => f x | Error => Error | Undefined => Undefined end.
  Definition undef {X} (o : option X) : outcome X := match o with Some x => Done x | None => Undefined end.

  Record info := mkInfo { i_dtype : Z; i_vals : list num }.
  (* MultiKey.cpp:180-290 for one object.  RipTide.cpp:242-258: an array that is not contiguous is copied; NumPy calls a one-dimensional array
     of at most one element contiguous whatever its stride is.  The stride of an array without dimensions is read through a null pointer *)
  Definition build_one (o : object) : outcome info :=
    match o with
    | ONone => Done (mkInfo 0 [])
    | OOther => Error
    | OArray c =>
        let n := Z.of_nat (length (c_vals c)) in
        let stride := if (c_ndim c =? 1) && (n <=? 1) then c_stride c else c_item c in
        if c_dtype c =? -1 then Error
        else if c_ndim c =? 0 then Undefined
        else if negb (c_ndim c =? 1) then Error
        else if negb (c_item c =? stride) && (0 <? n) then Error
        else Done (mkInfo (c_dtype c) (c_vals c))
    end.
  Fixpoint each {X Y} (f : X -> outcome Y) (l : list X) : outcome (list Y) :=
    match l with
    | [] => Done []
    | x :: l' => obind (f x) (fun y => obind (each f l') (fun ys => Done (y :: ys)))
    end.
  (* MultiKey.cpp:145-324 with checkrows and convert; one array is like a list of one array *)
  Definition BuildArrayInfo (cols : list object) : outcome (list info) :=
    obind (each build_one cols) (fun l =>
      if forallb (fun i => (length (i_vals i) =? length (i_vals (hd i l)))%nat) l then Done l else Error).

  (* PyLong_AsLongLongAndOverflow: -1 if it does not fit *)
  Definition as_int64 (z : Z) : Z := if (- 2 ^ 63 <=? z) && (z <? 2 ^ 63) then z else -1.
  (* the cast to GB_FUNCTIONS : int32_t *)
  Definition as_func (z : Z) : Z := wrapT (CI 4) (as_int64 z).

  (* the code reads the elements of the key one after the other *)
  Definition read_key (k : keyarg) : option (list Z) :=
    if (0 <=? k_start k) && (k_start k + k_len k <=? Z.of_nat (length (k_mem k)))
    then Some (firstn (Z.to_nat (k_len k)) (skipn (Z.to_nat (k_start k)) (k_mem k))) else None.

  (* what the machine adds: whether there is a work item (threads, and more rows than WORK_ITEM_BIG), the rows per block, the blocks
     each core takes in their order, and the contents of memory that is not initialised *)
  Record machine := mkM { m_item : bool; m_chunk : nat; m_cores : list (list nat); m_junk : nat -> Z -> num }.

  Definition new_array (m : machine) (id : nat) (n : Z) : list num := map (m_junk m id) (map Z.of_nat (seq 0 (Z.to_nat n))).
  Definition cut {X} (c : nat) (l : list X) : list (list X) := map (fun b => firstn (snd b) (skipn (fst b) l)) (chunks c (length l)).

  (* an array is read with type T, and written with type U *)
  Definition typed (d : Z) (T : ctype) : bool := match stored d with Some t => ctype_eqb t T | None => false end.

  (** GroupBy.cpp:4398-4575; None in the outcome: nothing was done, the columns are computed in the other way *)
  Definition single_op (m : machine) (i : info) (key : keyarg) (func rows low high : Z) : outcome (option (list (Z * list num))) :=
    match GetGroupByFunction func (i_dtype i) with
    | None => Done None
    | Some f =>
        if negb (m_item m) then Done None
        else if rows <? 0 then Error
        else
          let k := f_kernel f in
          obind (undef (read_key key)) (fun ks =>
          let blocks := cut (m_chunk m) (combine ks (i_vals i)) in
          let asg := map (map (fun b => nth b blocks [])) (m_cores m) in
          let out0 := new_array m 0 rows in
          let junk c := new_array m (S c) rows in
          let tmp c := new_array m (S c + length (m_cores m)) rows in
          let ids := seq 0 (length (m_cores m)) in
          match gather_fun_of func (k_U k), gather_type func (f_out f) with
          | Some g, Some gt =>
              if negb (typed (i_dtype i) (k_T k)) || negb (typed (f_out f) (k_U k)) || negb (typed (f_out f) gt)
                 || ((uses_counts (k_name k) || gather_counts func) && negb (f_counts f)) || (uses_tmp (k_name k) (k_T k) && negb (f_tmp f))
                 || (high <? low)
              then Undefined
              else match acc_fun_of (k_name k) (k_T k) (k_U k), tmp_fun_of (k_name k) (k_T k) (k_U k) with
                   | Some a, _ => obind (undef (GroupByScatter (inval (k_U k)) a g low high asg (map junk ids) out0)) (fun r => Done (Some [(f_out f, r)]))
                   | _, Some t => obind (undef (GroupByScatterFloat (inval (k_U k)) (zero_of (k_U k)) (zero_of D64) t g low high asg
                                                 (map (fun c => combine (junk c) (tmp c)) ids) out0)) (fun r => Done (Some [(f_out f, r)]))
                   | _, _ => Undefined
                   end
          | _, _ => Error
          end)
    end.

  Record task := mkTask { t_info : info; t_func : found; t_low : Z; t_high : Z; t_id : nat }.
  (* GroupBy.cpp:4719-4814: the preparation of column i *)
  Definition prepare (rows : Z) (funcs lows highs : list Z) (ii : nat * info) : outcome task :=
    match nth_error funcs (fst ii), nth_error lows (fst ii), nth_error highs (fst ii) with
    | Some fn, Some lo, Some hi =>
        match GetGroupByFunction (as_func fn) (i_dtype (snd ii)) with
        | Some f => if rows <? 0 then Error
                    else if f_tmp f && (as_int64 hi - as_int64 lo <? 0) then Error
                    else Done (mkTask (snd ii) f (as_int64 lo) (as_int64 hi) (fst ii))
        | None => Error
        end
    | _, _, _ => Undefined
    end.
  (* GroupBy.cpp:4099-4170, called by WorkGroupByCall (MathWorker.h:601-621) *)
  Definition group_by_call (m : machine) (rows : Z) (ks : list Z) (t : task) : outcome (Z * list num) :=
    let f := t_func t in
    let k := f_kernel f in
    if negb (typed (i_dtype (t_info t)) (k_T k)) || negb (typed (f_out f) (k_U k)) then Undefined
    else obind (undef (call_kernel k (f_counts f) (f_tmp f) (t_low t) (t_high t) (combine ks (i_vals (t_info t)))
                        (new_array m (3 * t_id t) rows) (new_array m (3 * t_id t + 1) rows) (new_array m (3 * t_id t + 2) rows)))
               (fun r => Done (f_out f, r)).

  Definition scatters (func : Z) : bool := ((0 <=? func) && (func <=? 3)) || ((50 <=? func) && (func <=? 53)).

  (* GroupBy.cpp:4584-4849.  The result: the type and the elements of every array *)
  Definition GroupByAll32 (m : machine) (cols : list object) (key : keyarg) (unique : Z) (funcs lows highs : list Z) : outcome (list (Z * list num)) :=
    if negb (k_dims key =? 1) then Error
    else if negb (existsb (Z.eqb (k_dtype key)) [1; 3; 5; 7; 9]) then Error
    else
      let rows := unique + 1 in
      obind (BuildArrayInfo cols) (fun infos =>
      if negb (length infos =? length funcs)%nat then Error
      else if negb (length infos =? length lows)%nat then Error
      else match infos with
      | [] => Undefined                        (* the length of the first column is read from memory that is not initialised *)
      | i0 :: rest =>
          if negb (Z.of_nat (length (i_vals i0)) =? k_len key) then Error
          else if negb ((- 2 ^ 63 <=? rows * 10) && (rows * 10 <? 2 ^ 63)) then Undefined        (* signed overflow *)
          else
            let func := as_func (hd 0 funcs) in
            obind (match rest with
                   | [] => if rows * 10 <? k_len key then
                             match highs with
                             | [] => Undefined
                             | hi :: _ => if scatters func then single_op m i0 key func rows (as_int64 (hd 0 lows)) (as_int64 hi) else Done None
                             end
                           else Done None
                   | _ => Done None
                   end) (fun done =>
            match done with
            | Some res => Done res
            | None =>
                obind (each (prepare rows funcs lows highs) (combine (seq 0 (length infos)) infos)) (fun ts =>
                obind (undef (read_key key)) (fun ks =>
                each (group_by_call m rows ks) ts))
            end)
      end).
End All.
Arguments num F : clear implicits.
Arguments arith F : clear implicits.
Arguments object F : clear implicits.
Arguments column F : clear implicits.
Arguments machine F : clear implicits.
Arguments Done {X} x.
Arguments Error {X}.
Arguments Undefined {X}.
