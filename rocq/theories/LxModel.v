(** Model of LexSort32 and LexSort64 of /repo/src/Sort.cpp from their arguments to their results: the arrays, the keywords cutoffs, ascending and
    index, the choice of the comparison by the type of each column, and the calls.  The sorts themselves are those of SortModel.
    Simplified: memory can always be had; floating point numbers are NaN, the infinities or whole numbers (only their order is used).
    No proofs in this file. *)
From Verif Require Import Base Mem Num SortModel AllModel EaModel.
Local Open Scope Z_scope.

(* what is no integer: a floating point number, or the bytes of an item of text or of raw bytes (code points for unicode) *)
Inductive cell := Fl (x : fl) | Tx (s : list Z).
Notation value := (num cell).

(* Sort.cpp:3072-3124, the cases of the types; PAR_SORT_TYPE, Sort.cpp:2401-2408.  bool is sorted as int8 *)
Inductive sort_type := TNormal | TFloat | TString | TUnicode | TVoid.
Definition type_of (d : Z) : option sort_type :=
  match d with
  | 0 | 1 | 2 | 3 | 4 | 5 | 6 | 7 | 8 | 9 | 10 => Some TNormal
  | 11 | 12 | 13 => Some TFloat
  | 18 => Some TString
  | 19 => Some TUnicode
  | 20 => Some TVoid
  | _ => None
  end.
(* the comparisons; None: the memory does not hold such items *)
Definition compare (t : sort_type) (asc : bool) (x y : value) : option bool :=
  match t, x, y with
  | TNormal, I a, I b => Some (COMPARE_LT_int asc a b)
  | TFloat, R (Fl a), R (Fl b) => Some (COMPARE_LT_float asc a b)
  | TString, R (Tx s), R (Tx u) => Some (STRING_LT asc s u)
  | TUnicode, R (Tx s), R (Tx u) => Some (UNICODE_LT asc s u)
  | TVoid, R (Tx s), R (Tx u) => Some (VOID_LT asc s u)
  | _, _, _ => None
  end.
(* a column as the merge sort sees it; only amergesort0_ has the test before the merge (Sort.cpp:1766) *)
Definition sort_column (asc : bool) (i : info (F := cell)) : list SortModel.column :=
  match type_of (i_dtype i) with
  | Some t => [Col (fun a b => let* x := zrd (i_vals i) a in let* y := zrd (i_vals i) b in compare t asc x y) (match t with TNormal => true | _ => false end)]
  | None => []
  end.

(* what the machine adds: whether threads are allowed, the work index that steps next (column, step), the order of the partitions, and the
   contents of memory that is not initialised *)
Record threads := mkThreads { t_on : bool; t_pick : nat -> nat -> nat; t_order : sched; t_junk : nat -> Z }.
(* the steps of the eight work indices of the parallel sort: one of those that are not finished, until all are *)
Fixpoint play {E} (lt : E -> E -> option bool) (check : bool) (ends : list Z) (n : Z) (pick : nat -> nat) (fuel : nat) (s : pstate E) : list nat :=
  match fuel with
  | O => []
  | S f =>
      match filter (fun t => negb (is_fin (nth t (ps_pc s) Fin8))) (seq 0 8) with
      | [] => []
      | u => let t := nth (pick f mod length u) u 0%nat in
             match par_step lt check ends n s t with Some s' => t :: play lt check ends n pick f s' | None => [] end
      end
  end.
(* Sort.cpp:3593-3607 without cutoffs: one column after the other; [k]: the number of the column *)
Fixpoint sort_columns (m : threads) (junk : list Z) (k : nat) (cols : list SortModel.column) (a : list Z) : option (list Z) :=
  match cols with
  | [] => Some a
  | c :: r =>
      let n := Z.of_nat (length a) in
      let ts := play (c_lt c) (c_check c) (end_positions n) n (t_pick m k) 64 (par_init a (firstn (length a) junk)) in
      let* a := par_amergesort (t_on m) ts junk c a in
      sort_columns m junk (S k) r a
  end.

(* Sort.cpp:3380-3403: the keyword ascending; the memory of an array is given as bytes *)
Inductive direction := DNone | DBool (b : bool) | DArray (a : arg Z) | DOther.
(* a byte read as bool *)
Definition as_bool (b : Z) : outcome bool := if b =? 0 then Done false else if b =? 1 then Done true else Undefined.
(* Sort.cpp:3496-3500, 3595 *)
Definition check_direction (count : nat) (d : direction) : outcome unit :=
  match d with DArray a => if a_len a =? Z.of_nat count then Done tt else Error | _ => Done tt end.
Definition read_direction (count : nat) (d : direction) : outcome (list bool) :=
  match d with
  | DArray a => each (fun i => obind (undef (zrd (a_mem a) (a_start a + Z.of_nat i))) as_bool) (seq 0 count)
  | DBool b => Done (repeat b count)
  | _ => Done (repeat true count)
  end.
(* Sort.cpp:3352-3378, 3491-3495, 3501-3505: the keyword cutoffs; what is no array is ignored.  The last element is read before anything else is
   known of the array *)
Definition int64_type (d : Z) : bool := (d =? 7) || (d =? 9).
Definition read_cutoffs (n : Z) (c : param Z) : outcome (option (list Z)) :=
  match c with
  | PArray a =>
      if int64_type (a_dtype a) then
        obind (undef (zrd (a_mem a) (a_start a + a_len a - 1))) (fun last =>
          if last =? n then obind (undef (read_arg a)) (fun l => Done (Some l)) else Error)
      else Error
  | _ => Done None
  end.
(* Sort.cpp:3423-3453, 3507-3548: the keyword index *)
Inductive start := NoIndex | EmptyIndex | Index (a : arg Z).
Definition read_index (bits n : Z) (i : param Z) : outcome start :=
  match i with
  | PArray a =>
      if negb ((a_dtype a =? 5) || int64_type (a_dtype a)) then Error
      else if 0 <? a_len a then
        if n <? a_len a then Error
        else if (bits =? 64) && negb (int64_type (a_dtype a)) then Error
        else if (bits =? 32) && negb (a_dtype a =? 5) then Error
        else Done (Index a)
      else Done EmptyIndex
  | _ => Done NoIndex
  end.

(* the elements of an array *)
Definition seen (a : arg Z) (mem : list Z) : list Z := map (fun i => nth (Z.to_nat (a_start a + Z.of_nat i * a_step a)) mem 0) (seq 0 (Z.to_nat (a_len a))).
(* the memory of an array in which the elements from its first one on have been replaced *)
Definition replaced (a : arg Z) (l : list Z) : list Z :=
  firstn (Z.to_nat (a_start a)) (a_mem a) ++ l ++ skipn (Z.to_nat (a_start a) + length l) (a_mem a).

(* Sort.cpp:3475-3633 and Sort.h:49-91.  [bits]: of the index type.  [cols]: the list that is the first argument, or all arguments.
   A call with an error that returns None counts as an error; the index type cannot count 2^31 rows; aInfo[0] is read also if there is no array *)
Definition LexSortCall (m : threads) (bits : Z) (cols : list (object cell)) (cutoffs : param Z) (ascending : direction) (index : param Z) : outcome (list Z) :=
  obind (BuildArrayInfo cols) (fun infos =>
    match cols, infos with
    | o :: _, i0 :: _ =>
        let n := Z.of_nat (length (i_vals i0)) in
        obind (read_cutoffs n cutoffs) (fun cut =>
        obind (check_direction (length infos) ascending) (fun _ =>
        obind (read_index bits n index) (fun start =>
        obind (read_direction (length infos) ascending) (fun dirs =>
          let sorted := flat_map (fun x => sort_column (fst x) (snd x)) (combine dirs infos) in
          let junk := map (t_junk m) (seq 0 (Z.to_nat n)) in
          let run given size := match cut with
            | Some ends => LexSort_cutoffs (t_order m) junk given ends n sorted
            | None => sort_columns m junk 0 sorted (match given with Some l => l | None => arange size end)
            end in
          match start with
          | Index a =>
              if (bits =? 32) && (2 ^ 31 <=? a_len a) then Undefined
              else obind (undef (read_arg a)) (fun l => obind (undef (run (Some l) (a_len a))) (fun r => Done (seen a (replaced a r))))
          | _ =>
              match o, start, cut with
              | ONone, _, _ => Undefined
              | _, EmptyIndex, None => if n =? 0 then Done [] else Undefined
              | _, _, _ => if (bits =? 32) && (2 ^ 31 <=? n) then Undefined else undef (run None n)
              end
          end))))
    | _, _ => Undefined
    end).
