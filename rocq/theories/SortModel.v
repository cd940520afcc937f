(** Sorting: src/Sort.cpp.

    An array is a list, a pointer is a position (Z).  Elements are compared by [lt : E -> E -> option bool]: for the
    in-place sorts E is the value type, for the index sorts E is the index type and [lt i j] compares v[i] and v[j].
    The result None is a read or write outside an array; every loop has a bound on its iterations that is also None
    when it is reached. *)
From Coq Require Import SpecFloat.
From Verif Require Import Base Mem Num.
Local Open Scope Z_scope.

Notation "'let*' x ':=' a 'in' b" := (match a with Some x => b | None => None end) (at level 200, x pattern, a at level 100, b at level 200).

(** ** Comparisons *)

(* Sort.cpp:78-99, integers and bool *)
Definition COMPARE_LT_int (asc : bool) (x y : Z) : bool := if asc then x <? y else y <? x.
(* the floating-point types: x < y (x > y), or y is NaN and x is not *)
Definition COMPARE_LT_float (asc : bool) (x y : fl) : bool :=
  (if asc then flt x y else flt y x) || (is_nan y && negb (is_nan x)).

(* Sort.cpp:101-116, unsigned bytes; 121-138 with 4-byte code points *)
Fixpoint STRING_LT (asc : bool) (s1 s2 : list Z) : bool :=
  match s1, s2 with
  | c1 :: r1, c2 :: r2 => if c1 =? c2 then STRING_LT asc r1 r2 else COMPARE_LT_int asc c1 c2
  | _, _ => false
  end.
Definition UNICODE_LT := STRING_LT.

(* a little-endian unsigned integer *)
Fixpoint le_word (bs : list Z) : Z := match bs with [] => 0 | b :: r => b + 256 * le_word r end.

(* Sort.cpp:141-320: 8 bytes at a time while more than 8 are left, then 8, 4, 2 and 1 bytes; a byte that follows other
   bytes is compared with < for both directions.  [first]: no byte has been compared yet. *)
Definition word_step (asc : bool) (k : nat) (s1 s2 : list Z) (rest : list Z -> list Z -> bool) : bool :=
  let w1 := le_word (firstn k s1) in let w2 := le_word (firstn k s2) in
  if w1 =? w2 then rest (skipn k s1) (skipn k s2) else COMPARE_LT_int asc w1 w2.
Definition void_tail (asc first : bool) (s1 s2 : list Z) : bool :=
  let byte f := word_step (asc || negb f) 1 in
  let stop (_ _ : list Z) := false in
  match length s1 with
  | 1%nat => byte first s1 s2 stop
  | 2%nat => word_step asc 2 s1 s2 stop
  | 3%nat => word_step asc 2 s1 s2 (fun a b => byte false a b stop)
  | 4%nat => word_step asc 4 s1 s2 stop
  | 5%nat => word_step asc 4 s1 s2 (fun a b => byte false a b stop)
  | 6%nat => word_step asc 4 s1 s2 (fun a b => word_step asc 2 a b stop)
  | 7%nat => word_step asc 4 s1 s2 (fun a b => word_step asc 2 a b (fun a b => byte false a b stop))
  | 8%nat => word_step asc 8 s1 s2 stop
  | _ => false
  end.
Fixpoint void_words (asc : bool) (n : nat) (s1 s2 : list Z) : bool :=
  match n with
  | O => void_tail asc false s1 s2
  | S n' => word_step asc 8 s1 s2 (void_words asc n')
  end.
Definition VOID_LT (asc : bool) (s1 s2 : list Z) : bool :=
  if (length s1 <=? 8)%nat then void_tail asc true s1 s2 else void_words asc ((length s1 - 1) / 8) s1 s2.

(* Sort.cpp:323-503, BINARY_LT: 1 if the bytes differ; for 7 bytes that differ only in the last one the result is *c1 < *c2 *)
Definition bytes_eqb (s1 s2 : list Z) : bool := if list_eq_dec Z.eq_dec s1 s2 then true else false.
Definition BINARY_LT (s1 s2 : list Z) : bool :=
  if (length s1 =? 7)%nat && bytes_eqb (firstn 6 s1) (firstn 6 s2) then nth 6 s1 0 <? nth 6 s2 0
  else negb (bytes_eqb s1 s2).

(** ** Merge sort *)
Section Sorts.
  Context {E : Type} (lt : E -> E -> option bool).

  (* Sort.cpp:1248-1258 (also 1461-1472, 1528-1540, 1576-1590, 1626-1640, 1720-1733, 1797-1810, 990-1002):
     while (pj > pl && LT(vp, *pk)) *pj-- = *pk--;  *pj = vp;   n = pj - pl *)
  Fixpoint ins (n : nat) (a : list E) (pj : Z) (vp : E) : option (list E) :=
    match n with
    | O => zwr a pj vp
    | S n' =>
        let* x := zrd a (pj - 1) in
        let* b := lt vp x in
        if b then let* a := zwr a pj x in ins n' a (pj - 1) vp else zwr a pj vp
    end.
  (* for (pi = pl + 1; pi < pr; ++pi) *)
  Fixpoint ins_loop (n : nat) (a : list E) (pl pi : Z) : option (list E) :=
    match n with
    | O => Some a
    | S n' =>
        let* vp := zrd a pi in
        let* a := ins (Z.to_nat (pi - pl)) a pi vp in
        ins_loop n' a pl (pi + 1)
    end.
  Definition insertion_sort (a : list E) (pl pr : Z) : option (list E) := ins_loop (Z.to_nat (pr - pl - 1)) a pl (pl + 1).

  (* memcpy(pw, pl, (pm - pl) * sizeof(E)) *)
  Fixpoint copy_out (n : nat) (a pw : list E) (pi pj : Z) : option (list E) :=
    match n with
    | O => Some pw
    | S n' => let* x := zrd a pj in let* pw := zwr pw pi x in copy_out n' a pw (pi + 1) (pj + 1)
    end.
  (* while (pj < pi) *pk++ = *pj++ *)
  Fixpoint copy_back (n : nat) (a pw : list E) (pj pk : Z) : option (list E) :=
    match n with
    | O => Some a
    | S n' => let* x := zrd pw pj in let* a := zwr a pk x in copy_back n' a pw (pj + 1) (pk + 1)
    end.
  (* Sort.cpp:1695-1712, 1775-1791, 2184-2200: the merge loop and the copy of what is left *)
  Fixpoint merge_loop (fuel : nat) (a pw : list E) (pj pi pm pr pk : Z) : option (list E) :=
    if (pj <? pi) && (pm <? pr) then
      match fuel with
      | O => None
      | S f =>
          let* x := zrd a pm in
          let* y := zrd pw pj in
          let* b := lt x y in
          if b then let* a := zwr a pk x in merge_loop f a pw pj pi (pm + 1) pr (pk + 1)
          else let* a := zwr a pk y in merge_loop f a pw (pj + 1) pi pm pr (pk + 1)
      end
    else copy_back (Z.to_nat (pi - pj)) a pw pj pk.
  (* ParMergeMerge, ParMergeMergeString, ... (Sort.cpp:1940-2204); the workspace starts at position [w0] of [pw] *)
  Definition merge_halves (a pw : list E) (w0 pl pr : Z) : option (list E * list E) :=
    let pm := pl + Z.shiftr (pr - pl) 1 in
    let* pw := copy_out (Z.to_nat (pm - pl)) a pw w0 pl in
    let* a := merge_loop (Z.to_nat (pr - pl)) a pw w0 (w0 + (pm - pl)) pm pr pl in
    Some (a, pw).

  (* Sort.cpp:1195-1260 (mergesort0_), 1408-1474 (mergesort0_float), 1498-1541, 1556-1591, 1607-1641 (amergesort0_string,
     _unicode, _void), 1668-1735 (amergesort0_float); with [check] 1750-1813 (amergesort0_) *)
  Fixpoint mergesort0 (check : bool) (fuel : nat) (a pw : list E) (w0 pl pr : Z) : option (list E * list E) :=
    match fuel with
    | O => None
    | S f =>
        if 16 <? pr - pl then
          let pm := pl + Z.shiftr (pr - pl) 1 in
          let* (a, pw) := mergesort0 check f a pw w0 pl pm in
          let* (a, pw) := mergesort0 check f a pw w0 pm pr in
          if check then
            let* x := zrd a pm in
            let* y := zrd a (pm - 1) in
            let* b := lt x y in
            if b then merge_halves a pw w0 pl pr else Some (a, pw)
          else merge_halves a pw w0 pl pr
        else let* a := insertion_sort a pl pr in Some (a, pw)
    end.

  (* mergesort_, mergesort_float (1264-1281, 1478-1494), amergesort_, single_amergesort (2410-2450): the workspace has
     num / 2 elements; [junk] is what malloc returned *)
  Definition mergesort (check : bool) (junk : list E) (a : list E) (pl num : Z) : option (list E) :=
    let* (a, _) := mergesort0 check (S (Z.to_nat num)) a (firstn (Z.to_nat (num / 2)) junk) 0 pl (pl + num) in Some a.

  (** ** Heap sort *)
  (* Sort.cpp:739-756 and 764-781: a[k] is position s + k - 1 of the array *)
  Fixpoint sift (fuel : nat) (a : list E) (s n i j : Z) (tmp : E) : option (list E) :=
    if j <=? n then
      match fuel with
      | O => None
      | S f =>
          let* j :=
            (if j <? n then
               let* x := zrd a (s + j - 1) in
               let* y := zrd a (s + j) in
               let* b := lt x y in Some (if b then j + 1 else j)
             else Some j) in
          let* x := zrd a (s + j - 1) in
          let* b := lt tmp x in
          if b then let* a := zwr a (s + i - 1) x in sift f a s n j (j + j) tmp
          else zwr a (s + i - 1) tmp
      end
    else zwr a (s + i - 1) tmp.
  (* for (l = n >> 1; l > 0; --l) *)
  Fixpoint heap_build (l : nat) (a : list E) (s n : Z) : option (list E) :=
    match l with
    | O => Some a
    | S l' =>
        let* tmp := zrd a (s + Z.of_nat l - 1) in
        let* a := sift (Z.to_nat n) a s n (Z.of_nat l) (Z.of_nat l * 2) tmp in
        heap_build l' a s n
    end.
  (* for (; n > 1;) *)
  Fixpoint heap_drain (k : nat) (a : list E) (s n : Z) : option (list E) :=
    match k with
    | O => Some a
    | S k' =>
        let* tmp := zrd a (s + n - 1) in
        let* x := zrd a s in
        let* a := zwr a (s + n - 1) x in
        let* a := sift (Z.to_nat n) a s (n - 1) 1 2 tmp in
        heap_drain k' a s (n - 1)
    end.
  (* Sort.cpp:727-785, 789-842, 846-900 *)
  Definition heapsort (a : list E) (s n : Z) : option (list E) :=
    let* a := heap_build (Z.to_nat (Z.shiftr n 1)) a s n in
    heap_drain (Z.to_nat (n - 1)) a s n.

  (** ** Quick sort *)
  Definition swap (a : list E) (i j : Z) : option (list E) :=
    let* x := zrd a i in
    let* y := zrd a j in
    let* a := zwr a i y in
    zwr a j x.
  (* if (LT( *i, *j)) SWAP *)
  Definition swap_lt (a : list E) (i j : Z) : option (list E) :=
    let* x := zrd a i in
    let* y := zrd a j in
    let* b := lt x y in
    if b then swap a i j else Some a.
  (* do ++pi; while (LT( *pi, vp)) *)
  Fixpoint scan_up (fuel : nat) (a : list E) (pi : Z) (vp : E) : option Z :=
    match fuel with
    | O => None
    | S f => let* x := zrd a (pi + 1) in let* b := lt x vp in if b then scan_up f a (pi + 1) vp else Some (pi + 1)
    end.
  (* do --pj; while (LT(vp, *pj)) *)
  Fixpoint scan_down (fuel : nat) (a : list E) (pj : Z) (vp : E) : option Z :=
    match fuel with
    | O => None
    | S f => let* x := zrd a (pj - 1) in let* b := lt vp x in if b then scan_down f a (pj - 1) vp else Some (pj - 1)
    end.
  Fixpoint part_loop (fuel : nat) (a : list E) (pi pj : Z) (vp : E) : option (list E * Z) :=
    match fuel with
    | O => None
    | S f =>
        let* pi := scan_up (length a) a pi vp in
        let* pj := scan_down (length a) a pj vp in
        if pj <=? pi then Some (a, pi)
        else let* a := swap a pi pj in part_loop f a pi pj vp
    end.
  (* Sort.cpp:936-966 *)
  Definition partition (a : list E) (pl pr : Z) : option (list E * Z) :=
    let pm := pl + Z.shiftr (pr - pl) 1 in
    let* a := swap_lt a pm pl in
    let* a := swap_lt a pr pm in
    let* a := swap_lt a pm pl in
    let* vp := zrd a pm in
    let* a := swap a pm (pr - 1) in
    let* (a, pi) := part_loop (length a) a pl (pr - 1) vp in
    let* a := swap a pi (pr - 1) in
    Some (a, pi).

  (* the stack has room for PYA_QS_STACK = 128 pointers: 64 entries (Sort.cpp:70) *)
  Definition qs_push (st : list (Z * Z * Z)) (x : Z * Z * Z) : option (list (Z * Z * Z)) :=
    if (length st <? 64)%nat then Some (x :: st) else None.
  (* Sort.cpp:911-1013, 1017-1095, 1099-1177.  [top]: at the test of cdepth *)
  Fixpoint quick_loop (fuel : nat) (top : bool) (a : list E) (pl pr cdepth : Z) (st : list (Z * Z * Z)) : option (list E) :=
    match fuel with
    | O => None
    | S f =>
        let pop a := match st with [] => Some a | (pl, pr, d) :: st => quick_loop f true a pl pr d st end in
        if top && (cdepth <? 0) then
          let* a := heapsort a pl (pr - pl + 1) in pop a
        else if 15 <? pr - pl then
          let* (a, pi) := partition a pl pr in
          if pi - pl <? pr - pi then
            let* st := qs_push st (pi + 1, pr, cdepth - 1) in quick_loop f false a pl (pi - 1) (cdepth - 1) st
          else
            let* st := qs_push st (pl, pi - 1, cdepth - 1) in quick_loop f false a (pi + 1) pr (cdepth - 1) st
        else
          let* a := insertion_sort a pl (pr + 1) in pop a
    end.
  (* Sort.cpp:56-67, npy_get_msb *)
  Definition npy_get_msb (unum : Z) : Z := if unum <=? 0 then 0 else Z.log2 unum.
  Definition quicksort (a : list E) (num : Z) : option (list E) :=
    quick_loop (S (Z.to_nat (2 * num))) true a 0 (num - 1) (npy_get_msb num * 2) [].
End Sorts.

(* the index sorts: v[i] < v[j] *)
Definition at_index {T} (lt : T -> T -> bool) (v : list T) (i j : Z) : option bool :=
  let* x := zrd v i in let* y := zrd v j in Some (lt x y).

(** ** SortInPlace and Sort *)
Inductive sort_mode := QSORT | MERGE | HEAP.
(* Sort.cpp:2690-2740.  [cmp]: COMPARE_LT<T>; [cmpf]: COMPARE_LT<float>, used by mergesort_float for every floating-point
   type (the value is converted to float) *)
Definition SortArray {T} (cmp cmpf : T -> T -> bool) (mode : sort_mode) (junk a : list T) : option (list T) :=
  match mode with
  | QSORT => quicksort (fun x y => Some (cmp x y)) a (Z.of_nat (length a))
  | MERGE => mergesort (fun x y => Some (cmpf x y)) false junk a 0 (Z.of_nat (length a))
  | HEAP => heapsort (fun x y => Some (cmp x y)) a 0 (Z.of_nat (length a))
  end.
(* Sort.cpp:2845-2851: byte strings are sorted as an array of char: the first n bytes of the n items; signed char *)
Definition SortArray_string (mode : sort_mode) (junk bytes : list Z) (n : nat) : option (list Z) :=
  let* r := SortArray (COMPARE_LT_int true) (COMPARE_LT_int true) mode junk (firstn n bytes) in Some (r ++ skipn n bytes).

(* double compared as float *)
Definition sf64 := spec_float.
Definition to_float (x : sf64) : spec_float :=
  match x with S754_finite s m e => binary_normalize 24 128 (if s then Zneg m else Zpos m) e s | y => y end.
Definition sf_nan (x : spec_float) : bool := match x with S754_nan => true | _ => false end.
Definition COMPARE_LT_sf (asc : bool) (x y : spec_float) : bool :=
  (if asc then SFltb x y else SFltb y x) || (sf_nan y && negb (sf_nan x)).
Definition COMPARE_LT_as_float (asc : bool) (x y : sf64) : bool := COMPARE_LT_sf asc (to_float x) (to_float y).

(** ** The parallel merge sort: Sort.cpp:2238-2395, 2600-2660 *)

(* EndPositions for 8 blocks *)
Definition end_positions (n : Z) : list Z :=
  let e7 := n in
  let e3 := n / 2 in
  let e5 := e3 + (e7 - e3) / 2 in
  let e1 := 0 + (e3 - 0) / 2 in
  let e6 := e5 + (e7 - e5) / 2 in
  let e4 := e3 + (e5 - e3) / 2 in
  let e2 := e1 + (e3 - e1) / 2 in
  let e0 := 0 + (e1 - 0) / 2 in
  [e0; e1; e2; e3; e4; e5; e6; e7].

(* One work index 0..7.  Each call of MergeCallbackOne/Two is a step that starts ([running] becomes true) and a step that
   ends, when its effect on the arrays happens; the interlocked OR that follows is a third step. *)
Inductive pc :=
  | Call (level : nat) (index : Z) (running : bool) (* before or in the sort or merge of this level; index as in the code *)
  | Or (level : nat) (index : Z)                    (* before FMInterlockedOr(&Level[level], ...) *)
  | Fin8.                                           (* CompleteWorkBlock *)
Record pstate (E : Type) := PS { ps_arr : list E; ps_ws : list E; ps_level : list Z; ps_pc : list pc }.
Arguments PS {E}. Arguments ps_arr {E}. Arguments ps_ws {E}. Arguments ps_level {E}. Arguments ps_pc {E}.

(* [pFirst, pSecond) of a call: 2255-2263, 2297-2306, 2351-2359, 2387-2389 *)
Definition call_range (ends : list Z) (n : Z) (level : nat) (index : Z) : option (Z * Z) :=
  let at_end back := let* second := zrd ends index in
                     if back <=? index then let* first := zrd ends (index - back) in Some (first, second) else Some (0, second) in
  match level with
  | 0%nat => at_end 1
  | 1%nat => at_end 2
  | 2%nat => at_end 4
  | _ => Some (0, n)
  end.
(* the bit of Level[level] set after the call: 2277, 2312-2313, 2365-2366 *)
Definition or_bit (level : nat) (index : Z) : Z :=
  match level with 0%nat => index | 1%nat => index / 2 | _ => index / 4 end.
Definition buddy_bit (b : Z) : Z := if Z.odd b then b - 1 else b + 1.
(* the index of the next call: 2289-2292, 2342-2345 *)
Definition next_index (level : nat) (b : Z) : Z :=
  match level with 0%nat => b / 2 * 2 + 1 | 1%nat => b / 2 * 4 + 3 | _ => b end.

Section Par.
  Context {E : Type} (lt : E -> E -> option bool) (check : bool) (ends : list Z) (n : Z).

  Definition do_call (level : nat) (first second : Z) (a ws : list E) : option (list E * list E) :=
    match level with
    | O => mergesort0 lt check (S (Z.to_nat (second - first))) a ws first first second
    | _ => merge_halves lt a ws first first second
    end.

  (* a step of work index [t]; None: an error or no step *)
  Definition par_step (s : pstate E) (t : nat) : option (pstate E) :=
    let* p := nth_error (ps_pc s) t in
    match p with
    | Call l i false => Some (PS (ps_arr s) (ps_ws s) (ps_level s) (upd (ps_pc s) t (Call l i true)))
    | Call l i true =>
        let* (first, second) := call_range ends n l i in
        let* (a, ws) := do_call l first second (ps_arr s) (ps_ws s) in
        Some (PS a ws (ps_level s) (upd (ps_pc s) t (match l with 3%nat => Fin8 | _ => Or l i end)))
    | Or l i =>
        let* lv := nth_error (ps_level s) l in
        let b := or_bit l i in
        let lv' := Z.lor lv (Z.shiftl 1 b) in
        let p' := if Z.testbit lv (buddy_bit b) then Call (S l) (next_index l b) false else Fin8 in
        Some (PS (ps_arr s) (ps_ws s) (upd (ps_level s) l lv') (upd (ps_pc s) t p'))
    | Fin8 => None
    end.

  Definition par_init (a ws : list E) : pstate E :=
    PS a ws [0; 0; 0] (map (fun i => Call 0 (Z.of_nat i) false) (seq 0 8)).
  (* any interleaving: a list of work indices, each of which has a step *)
  Fixpoint par_run (s : pstate E) (ts : list nat) : option (pstate E) :=
    match ts with
    | [] => Some s
    | t :: ts' => let* s' := par_step s t in par_run s' ts'
    end.
End Par.
Definition is_fin (p : pc) : bool := match p with Fin8 => true | _ => false end.

(** ** SortIndex with partitions: Sort.cpp:2462-2540 *)
(* partStart and partLength of each partition *)
Fixpoint parts (start : Z) (cutoffs : list Z) : list (Z * Z) :=
  match cutoffs with [] => [] | c :: r => (start, c - start) :: parts c r end.
Fixpoint run_parts {E} (f : Z * Z -> list E -> option (list E)) (ps : list (Z * Z)) (a : list E) : option (list E) :=
  match ps with [] => Some a | p :: r => let* a := f p a in run_parts f r a end.

(* a column: compares two rows; None: outside the values.  [check]: the variant of the merge sort *)
Record column := Col { c_lt : Z -> Z -> option bool; c_check : bool }.
(* the values of a partition start at row [start] *)
Definition shift_col (start : Z) (c : column) : Z -> Z -> option bool := fun i j => c_lt c (start + i) (start + j).

(* Each partition is sorted by one thread; the threads run the partitions in any order.  A partition touches only its own
   part of the array, see [mergesort_frame]. *)
Definition sort_partitions (ord : sched) (junk : list Z) (c : column) (cutoffs a : list Z) : option (list Z) :=
  run_parts (fun p => fun a => mergesort (shift_col (fst p) c) (c_check c) junk a (fst p) (snd p)) (ord _ (parts 0 cutoffs)) a.

(* how par_amergesort sorts without cutoffs: below WORK_ITEM_BIG (32768) rows on one thread with a workspace of half the
   size; else with a workspace of the full size on one thread if threading is off, or by the 8 work indices, in the
   interleaving [ts]; None also if [ts] is not a complete run *)
Definition BIG : Z := 32768.
Definition par_amergesort (threading : bool) (ts : list nat) (junk : list Z) (c : column) (a : list Z) : option (list Z) :=
  let n := Z.of_nat (length a) in
  if n <? BIG then mergesort (c_lt c) (c_check c) junk a 0 n
  else if threading then
    let* s := par_run (c_lt c) (c_check c) (end_positions n) n (par_init a (firstn (length a) junk)) ts in
    if forallb is_fin (ps_pc s) then Some (ps_arr s) else None
  else let* (a, _) := mergesort0 (c_lt c) (c_check c) (S (Z.to_nat n)) a (firstn (length a) junk) 0 0 n in Some a.

(** ** LexSort: Sort.cpp:3476-3612 *)
Definition arange (n : Z) : list Z := map Z.of_nat (seq 0 (Z.to_nat n)).
(* The columns in the order they are sorted; one interleaving per column *)
Fixpoint lex_loop (f : list nat -> column -> list Z -> option (list Z)) (ts : list (list nat)) (cols : list column) (a : list Z) : option (list Z) :=
  match cols with
  | [] => Some a
  | c :: cs => let* a := f (hd [] ts) c a in lex_loop f (tl ts) cs a
  end.
(* no cutoffs; [index]: the index= argument *)
Definition LexSort (threading : bool) (ts : list (list nat)) (junk : list Z) (n : Z) (index : option (list Z)) (cols : list column) : option (list Z) :=
  lex_loop (fun ts => par_amergesort threading ts junk) ts cols (match index with Some l => l | None => arange n end).
(* the partition start indices: 3551-3563 *)
Fixpoint part_arange (start : Z) (cutoffs : list Z) : list Z :=
  match cutoffs with [] => [] | c :: r => arange (c - start) ++ part_arange c r end.
(* with cutoffs, the last of which is the number of rows; [index]: also index=, which is overwritten *)
Definition LexSort_cutoffs (ord : sched) (junk : list Z) (index : option (list Z)) (cutoffs : list Z) (n : Z) (cols : list column) : option (list Z) :=
  let out := match index with Some l => l | None => repeat 0 (Z.to_nat n) end in
  let* a := writes (enum 1 0 (part_arange 0 cutoffs)) out in
  lex_loop (fun _ c a => sort_partitions ord junk c cutoffs a) [] cols a.

(** ** IsSorted: Sort.cpp:3131-3210 and 3295-3340 *)
Section IsSorted.
  Context {T : Type} (ge : T -> T -> bool) (nan : T -> bool).
  (* while ((i > 0) && pData[i] >= pData[i - 1]) i--;   from i = n *)
  Fixpoint sorted_scan (a : list T) (n : nat) : option nat :=
    match n with
    | O => Some O
    | S n' =>
        let* x := nth_error a n in
        let* y := nth_error a n' in
        if ge x y then sorted_scan a n' else Some n
    end.
  (* while ((i > 0) && pData[i] != pData[i]) i--; *)
  Fixpoint nan_scan (a : list T) (n : nat) : option nat :=
    match n with
    | O => Some O
    | S n' => let* x := nth_error a n in if nan x then nan_scan a n' else Some n
    end.
  (* IsSortedFloat; the other variants have no NaN.  The segment is [a] from [start]. *)
  Definition IsSortedSeg (a : list T) (start len : nat) : option bool :=
    let seg := skipn start a in
    match len with
    | O => Some true
    | S n => let* i := nan_scan seg n in let* i := sorted_scan seg i in Some (i =? 0)%nat
    end.
  (* the callback goes back one row except at the start; [flag]: what it reads from IsSorted *)
  Definition is_sorted_chunk (a : list T) (flag : bool) (c : nat * nat) : option bool :=
    if flag then
      let '(s, l) := if (fst c =? 0)%nat then c else (fst c - 1, snd c + 1)%nat in
      let* r := IsSortedSeg a s l in Some r
    else Some true.
  (* The flag is 1 until some chunk sets it to 0.  [seen k]: whether chunk k reads 1; it can only read 0 after another
     chunk has set it. *)
  Fixpoint is_sorted_chunks (a : list T) (seen : nat -> bool) (k : nat) (cs : list (nat * nat)) (flag : bool) : option bool :=
    match cs with
    | [] => Some flag
    | c :: r => let* ok := is_sorted_chunk a (flag || seen k) c in is_sorted_chunks a seen (S k) r (flag && ok)
    end.
  Definition IsSorted (ord : sched) (threaded : bool) (seen : nat -> bool) (a : list T) : option bool :=
    is_sorted_chunks a seen 0 (ord _ (chunk_calls threaded CHUNK (length a))) true.
End IsSorted.

(** ** GroupFromLexSort: Sort.cpp:3690-3900 *)
Section Groups.
  Context {T : Type} (differ : T -> T -> bool) (v : list T).

  (* the state of the loops: the last value, curCount, curGroup and the outputs *)
  Record gstate := GS { g_val : T; g_cnt : Z; g_grp : Z; g_key : list Z; g_first : list Z; g_count : list Z }.

  (* [zero]: GroupIndexStep2 with base_index 0, which does not shift the counts; [base] is added to the group numbers *)
  Definition group_step (zero : bool) (base : Z) (s : gstate) (curIndex : Z) : option gstate :=
    let* val2 := zrd v curIndex in
    if differ (g_val s) val2 then
      let* cnt := zwr (g_count s) (if zero then g_grp s else g_grp s + 1) (g_cnt s) in
      let g := g_grp s + 1 in
      let* first := zwr (g_first s) g curIndex in
      let* key := zwr (g_key s) curIndex (g + base) in
      Some (GS val2 1 g key first cnt)
    else
      let* key := zwr (g_key s) curIndex (g_grp s + base) in
      Some (GS (g_val s) (g_cnt s + 1) (g_grp s) key (g_first s) (g_count s)).
  Fixpoint group_loop (zero : bool) (base : Z) (s : gstate) (index : list Z) : option gstate :=
    match index with
    | [] => Some s
    | i :: r => let* s := group_step zero base s i in group_loop zero base s r
    end.
  (* GroupIndex: the number of groups and the arrays.  [shift]: the string variant, which shifts the counts also for
     base_index 0 *)
  Definition GroupIndex (shift : bool) (base : Z) (index key first cnt : list Z) : option (Z * (list Z * list Z * list Z)) :=
    let zero := negb shift && (base =? 0) in
    match index with
    | [] => Some (0, (key, first, cnt))
    | i :: r =>
        let* x := zrd v i in
        let* cnt := (if zero then Some cnt else zwr cnt 0 0) in
        let* first := zwr first 0 i in
        let* key := zwr key i base in
        let* s := group_loop zero base (GS x 1 0 key first cnt) r in
        let g := if zero then g_grp s else g_grp s + 1 in
        let* cnt := zwr (g_count s) g (g_cnt s) in
        Some (g_grp s + 1, (g_key s, g_first s, cnt))
    end.
End Groups.
Arguments gstate : clear implicits.

(* GroupFromLexSortInternal without cutoffs: key, iFirstKey and nCount; [junk]: what the output arrays contain *)
Definition GroupFromLexSort {T} (differ : T -> T -> bool) (shift : bool) (base : Z) (v : list T) (index : list Z) (junk : Z)
  : option (list Z * list Z * list Z) :=
  let* (u, (key, first, cnt)) :=
    GroupIndex differ v shift base index (repeat junk (length v)) (repeat junk (length index)) (repeat junk (length index + 1)) in
  Some (key, firstn (Z.to_nat u) first, firstn (Z.to_nat u + 1) cnt).

(* GroupIndexStep2 compares items of 1, 2, 4 and 8 bytes as integers, the others with BINARY_LT *)
Definition item_differ (x y : list Z) : bool :=
  match length x with
  | 1%nat | 2%nat | 4%nat | 8%nat => negb (le_word x =? le_word y)
  | _ => BINARY_LT x y
  end.
Definition item_shift (isz : nat) : bool := negb ((isz =? 1) || (isz =? 2) || (isz =? 4) || (isz =? 8))%nat.

(* GroupFromLexSortInternal with cutoffs: Sort.cpp:3985-4287.  GroupIndex runs on each partition with base_index 0 and the
   partition's own parts of the arrays; then the keys, the first rows and the index become those of the whole array.
   The partitions touch different parts, so the model does not follow the order of the threads; a write outside the
   partition's own part is None.  Returns the keys, the changed index, iFirstKey, nCount and the cumulated numbers of groups. *)
Definition group_part {T} (differ : T -> T -> bool) (shift : bool) (v : list T) (index : list Z) (junk : Z) (p : Z * Z)
  : option (Z * (list Z * list Z * list Z)) :=
  let part {A} (l : list A) := firstn (Z.to_nat (snd p)) (skipn (Z.to_nat (fst p)) l) in
  let out := repeat junk (Z.to_nat (snd p)) in
  GroupIndex differ (part v) shift 0 (part index) out out out.
Fixpoint group_parts {T} (differ : T -> T -> bool) (shift : bool) (v : list T) (index : list Z) (junk : Z) (ps : list (Z * Z)) (before : Z)
  : option (list Z * list Z * list Z * list Z * list Z) :=
  match ps with
  | [] => Some ([], [], [], [], [])
  | p :: r =>
      let* (u, (key, first, cnt)) := group_part differ shift v index junk p in
      let idx := firstn (Z.to_nat (snd p)) (skipn (Z.to_nat (fst p)) index) in
      let* (keys, idxs, firsts, cnts, us) := group_parts differ shift v index junk r (before + u) in
      Some (map (fun k => k + (before + 1)) key ++ keys, map (fun i => i + fst p) idx ++ idxs,
            map (fun i => i + fst p) (firstn (Z.to_nat u) first) ++ firsts, firstn (Z.to_nat u) cnt ++ cnts, (before + u) :: us)
  end.
Definition GroupFromLexSort_cutoffs {T} (differ : T -> T -> bool) (shift : bool) (v : list T) (index : list Z) (junk : Z) (cutoffs : list Z)
  : option (list Z * list Z * list Z * list Z * list Z) :=
  let* (keys, idxs, firsts, cnts, us) := group_parts differ shift v index junk (parts 0 cutoffs) 0 in
  Some (keys, idxs, firsts, 0 :: cnts, us).
