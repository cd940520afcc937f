(** src/Convert.cpp: filters combined with group numbers, first and last rows of groups, trailing spaces. No proofs in this file. *)
From Verif Require Import Base Mem Par.
Local Open Scope Z_scope.

(* the value of a row's filter: None when no filter was given *)
Definition passes (filter : option (list bool)) (i : nat) : option bool :=
  match filter with None => Some true | Some f => nth_error f i end.

(** ** CombineFilter *)

(* Convert.cpp:1356-1365 CombineMask, 1433-1523 CombineFilter: the filter's byte times the group number, in the type of the group number *)
Definition CombineFilter (ord : sched) (threaded : bool) (w : Z) (index : list Z) (filter : list Z) : option (list Z) :=
  if (length index =? length filter)%nat then
    par_map ord threaded CHUNK (length index) (fun i =>
      match nth_error index i, nth_error filter i with Some x, Some b => Some (wrap w (x * b)) | _, _ => None end) 0
  else None.

(** ** CombineAccum2Filter *)

(* Convert.cpp:1791-1808: the type of the result *)
Definition out_width (hashSize : Z) : Z :=
  if hashSize <? 120 then 8 else if hashSize <? 32000 then 16 else if hashSize <? 2000000000 then 32 else 64.
Definition in_int64 (x : Z) : bool := (- 2 ^ 63 <=? x) && (x <? 2 ^ 63).
(* Convert.cpp:1596-1634, without counts (bWantCount is false, 1895): one row; None: overflow of int64 *)
Definition accum2_row (multiplier hashSize x1 x2 : Z) (filter : option bool) : option Z :=
  let V := out_width hashSize in
  if in_int64 (x2 * multiplier) && in_int64 (x2 * multiplier + x1) then
    let bin := wrap V (x2 * multiplier + x1) in
    match filter with
    | None => Some bin
    | Some true => Some (if (0 <=? bin) && (bin <? wrap V hashSize) then bin else 0)
    | Some false => Some 0
    end
  else match filter with Some false => Some 0 | _ => None end.
Inductive result (A : Type) := Ok (a : A) | Error | Undefined.
Arguments Ok {A}. Arguments Error {A}. Arguments Undefined {A}.
(* Convert.cpp:1728-2042 *)
Definition CombineAccum2Filter (ord : sched) (threaded : bool) (in1 in2 : list Z) (max1 max2 : Z) (filter : option (list bool)) : result (list Z) :=
  let m1 := max1 + 1 in let m2 := max2 + 1 in
  if negb (in_int64 m1 && in_int64 m2 && in_int64 (m1 * m2)) then Undefined
  else if negb (length in1 =? length in2)%nat then Error
  else if match filter with Some f => negb (length in1 =? length f)%nat | None => false end then Error
  else if m1 * m2 <? 0 then Error
  else match par_map ord threaded CHUNK (length in1) (fun i =>
               match nth_error in1 i, nth_error in2 i with
               | Some x1, Some x2 =>
                   match filter with
                   | None => accum2_row m1 (m1 * m2) x1 x2 None
                   | Some f => match nth_error f i with Some b => accum2_row m1 (m1 * m2) x1 x2 (Some b) | None => None end
                   end
               | _, _ => None
               end) 0 with
       | Some r => Ok r
       | None => Undefined
       end.

(** ** CombineAccum1Filter *)

Record comb := { c_hash : list Z; c_first : list Z; c_unique : Z; c_out : list Z }.
(* Convert.cpp:2083-2164: one row; the new group numbers are appended to [c_out] *)
Definition comb_row (w hashLength : Z) (i : Z) (index : Z) (pass : bool) (s : comb) : option comb :=
  if pass && (0 <? index) && (index <? hashLength) then
    match zrd (c_hash s) index with
    | None => None
    | Some h =>
        if h =? 0 then
          match zwr (c_first s) (c_unique s) (wrap 32 i), zwr (c_hash s) index (c_unique s + 1) with
          | Some first, Some hash => Some {| c_hash := hash; c_first := first; c_unique := c_unique s + 1; c_out := c_out s ++ [wrap w (c_unique s + 1)] |}
          | _, _ => None
          end
        else Some {| c_hash := c_hash s; c_first := c_first s; c_unique := c_unique s; c_out := c_out s ++ [wrap w h] |}
    end
  else Some {| c_hash := c_hash s; c_first := c_first s; c_unique := c_unique s; c_out := c_out s ++ [0] |}.
Fixpoint comb_rows (w hashLength i : Z) (rows : list (Z * bool)) (s : comb) : option comb :=
  match rows with
  | [] => Some s
  | (x, p) :: rows' => match comb_row w hashLength i x p s with Some s' => comb_rows w hashLength (i + 1) rows' s' | None => None end
  end.
(* the rows with their filter *)
Definition rows_filter (index : list Z) (filter : option (list bool)) : list (Z * bool) :=
  combine index (match filter with None => repeat true (length index) | Some f => f end).
(* Convert.cpp:2067-2170, 2181-2290: [garbage] is what the new array of first rows held. New group numbers, first rows, number of groups *)
Definition CombineAccum1Filter (w : Z) (index : list Z) (max1 : Z) (filter : option (list bool)) (garbage : list Z) : result (list Z * list Z * Z) :=
  let hashSize := max1 + 1 in
  if match filter with Some f => negb (length index =? length f)%nat | None => false end then Error
  else if (hashSize <? 0) || (2000000000 <? hashSize) then Error
  else match comb_rows w hashSize 0 (rows_filter index filter)
               {| c_hash := repeat 0 (Z.to_nat hashSize); c_first := garbage; c_unique := 0; c_out := [] |} with
       | None => Undefined
       | Some s => Ok (c_out s, firstn (Z.to_nat (c_unique s)) (c_first s), c_unique s)
       end.

(** ** MakeiFirst *)

Definition INVALID64 : Z := - 2 ^ 63.
(* Convert.cpp:2299-2358 iFirstFilter, 2361-2407 iLastFilter: one row *)
Definition ifirst_row (last : bool) (hashLength : Z) (i index : Z) (pass : bool) (first : list Z) : option (list Z) :=
  if pass && (0 <? index) && (index <? hashLength) then
    if last then zwr first index i
    else match zrd first index with
         | None => None
         | Some f => if f =? INVALID64 then zwr first index i else Some first
         end
  else Some first.
Fixpoint ifirst_rows (last : bool) (hashLength i : Z) (rows : list (Z * bool)) (first : list Z) : option (list Z) :=
  match rows with
  | [] => Some first
  | (x, p) :: rows' => match ifirst_row last hashLength i x p first with Some f => ifirst_rows last hashLength (i + 1) rows' f | None => None end
  end.
(* Convert.cpp:2421-2525 *)
Definition MakeiFirst (index : list Z) (max1 : Z) (filter : option (list bool)) (last : bool) : result (list Z) :=
  let hashSize := max1 + 1 in
  if match filter with Some f => negb (length index =? length f)%nat | None => false end then Error
  else if (hashSize <? 0) || (20000000000 <? hashSize) then Error
  else match ifirst_rows last hashSize 0 (rows_filter index filter) (repeat INVALID64 (Z.to_nat hashSize)) with
       | None => Undefined
       | Some f => Ok f
       end.

(** ** RemoveTrailingSpaces *)

(* Convert.cpp:2529-2540, 2544-2558: one string: the loop from its last character on, [p] characters before the pointer *)
Fixpoint trim_loop (p : nat) (chars : list Z) : list Z :=
  match p with
  | O => chars
  | S q => match nth_error chars q with
           | Some c => if (c =? 32) || (c =? 0) then trim_loop q (upd chars q 0) else chars
           | None => chars
           end
  end.
Definition trim (chars : list Z) : list Z := trim_loop (length chars) chars.
(* Convert.cpp:2529-2540, 2544-2558: [n] strings of [w] characters, one after the other *)
Fixpoint TrailingSpaces (n w : nat) (chars : list Z) : list Z :=
  match n with O => chars | S n' => trim (firstn w chars) ++ TrailingSpaces n' w (skipn w chars) end.

(* Convert.cpp:45-108 ConvertSafeStringCopy: [n] strings of [w] bytes to strings of [w2] bytes *)
Fixpoint ConvertSafeStringCopy (n w w2 : nat) (bytes : list Z) : list Z :=
  match n with
  | O => []
  | S n' => (if (w =? w2)%nat then firstn w bytes
             else if (w <? w2)%nat then firstn w bytes ++ repeat 0 (w2 - w)
             else firstn w2 bytes) ++ ConvertSafeStringCopy n' w w2 (skipn w bytes)
  end.

(** ** ShiftArrays *)

Section Shift.
  Context {A : Type}.
  (* memmove of [n] items; None: outside the buffer *)
  Definition memmove (dst src n : Z) (l : list A) : option (list A) :=
    if (0 <=? n) && (0 <=? dst) && (0 <=? src) && (dst + n <=? Z.of_nat (length l)) && (src + n <=? Z.of_nat (length l)) then
      Some (firstn (Z.to_nat dst) l ++ firstn (Z.to_nat n) (skipn (Z.to_nat src) l) ++ skipn (Z.to_nat (dst + n)) l)
    else None.
  (* Convert.cpp:3166-3200: arrays of one dimension, and of several dimensions that are not in Fortran order *)
  Definition shift_flat (k : Z) (l : list A) : option (list A) :=
    let n := Z.of_nat (length l) in
    let delta := if k <? 0 then n + k else n - k in
    if 0 <? delta then if k <? 0 then memmove (- k) 0 delta l else memmove 0 k delta l else Some l.
  (* Convert.cpp:3136-3163: the columns one after the other *)
  Fixpoint shift_cols (cols : nat) (dst src move rows : Z) (l : list A) : option (list A) :=
    match cols with
    | O => Some l
    | S c => match memmove dst src move l with Some l' => shift_cols c (dst + rows) (src + rows) move rows l' | None => None end
    end.
  Definition shift_fortran (rows cols : nat) (k : Z) (l : list A) : option (list A) :=
    let r := Z.of_nat rows in
    let move := if k <? 0 then r + k else r - k in
    if 0 <? move then if k <? 0 then shift_cols cols (- k) 0 move r l else shift_cols cols 0 k move r l else Some l.
  (* Convert.cpp:3100-3203: one contiguous array in memory order; [strides] in items *)
  Definition ShiftArray (dims : list nat) (strides : list Z) (k : Z) (l : list A) : option (list A) :=
    match strides with
    | s0 :: s1 :: rest =>
        if s0 <? s1 then
          match rest, dims with
          | [], [rows; cols] => shift_fortran rows cols k l
          | _, _ => Some l
          end
        else shift_flat k l
    | _ => shift_flat k l
    end.
End Shift.
