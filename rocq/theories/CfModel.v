(** Model of CombineFilter, CombineAccum1Filter, CombineAccum2Filter, MakeiFirst and RemoveTrailingSpaces of /repo/src/Convert.cpp from their arguments
    to their results: the checks of the arguments, the choice of the function for the types and the call.  The loops are those of CombModel, the arrays
    those of EaModel; an element of a filter is its byte.
    Simplified: arrays have one dimension; strides are multiples of the item size; memory can always be had.  No proofs in this file. *)
From Verif Require Import Base Mem AllModel EaModel.
From Verif Require CombModel.
Local Open Scope Z_scope.

(* the bits of the supported types, Convert.cpp:1367-1382, 1815-1893, 2230-2248, 2471-2509; CommonInc.h:110-114 *)
Definition index_bits (d : Z) : option Z :=
  match d with 1 => Some 8 | 3 => Some 16 | 5 => Some 32 | 7 | 9 => Some 64 | _ => None end.
(* Convert.cpp:1764-1783: [strict]; 2195-2208, 2440-2453: other objects are ignored *)
Definition check_filter (strict : bool) (n : Z) (filter : param Z) : outcome (option (arg Z)) :=
  match filter with
  | PNone => Done None
  | PArray f => if negb (n =? a_len f) then Error else if negb (a_dtype f =? 0) then Error else Done (Some f)
  | POther => if strict then Error else Done None
  end.
(* Convert.cpp:1603, 2088, 2321, 2381: if (pFilter[i]) *)
Definition read_filter (filter : option (arg Z)) : outcome (option (list bool)) :=
  match filter with
  | None => Done None
  | Some f => obind (undef (read_arg f)) (fun bs => Done (Some (map (fun b => negb (b =? 0)) bs)))
  end.
Definition lift {X} (r : CombModel.result X) : outcome X :=
  match r with CombModel.Ok x => Done x | CombModel.Error => Error | CombModel.Undefined => Undefined end.
(* Convert.cpp:1791-1808: the type number for a width *)
Definition out_type (w : Z) : Z := match w with 8 => 1 | 16 => 3 | 32 => 5 | _ => 7 end.

(* Convert.cpp:1433-1530: the type and the elements of the result *)
Definition CombineFilterCall (ord : sched) (threaded : bool) (index filter : arg Z) : outcome (Z * list Z) :=
  if negb (a_len index =? a_len filter) then Error
  else if negb (a_dtype filter =? 0) then Error
  else match index_bits (a_dtype index) with
  | None => Error
  | Some w => obind (undef (read_arg index)) (fun xs => obind (undef (read_arg filter)) (fun bs =>
              obind (undef (CombModel.CombineFilter ord threaded w xs bs)) (fun r => Done (a_dtype index, r))))
  end.

(* Convert.cpp:1728-2042; the format L takes an int64 *)
Definition CombineAccum2Call (ord : sched) (threaded : bool) (a1 a2 : arg Z) (max1 max2 : Z) (filter : param Z) : outcome (Z * list Z) :=
  if negb (int64_ok max1 && int64_ok max2) then Error
  else
    let size := (max1 + 1) * (max2 + 1) in
    if negb (int64_ok (max1 + 1) && int64_ok (max2 + 1) && int64_ok size) then Undefined
    else if negb (a_len a1 =? a_len a2) then Error
    else obind (check_filter true (a_len a1) filter) (fun f =>
         if size <? 0 then Error
         else match index_bits (a_dtype a1), index_bits (a_dtype a2) with
         | Some _, Some _ =>
             obind (undef (read_arg a1)) (fun xs => obind (undef (read_arg a2)) (fun ys => obind (read_filter f) (fun bs =>
             obind (lift (CombModel.CombineAccum2Filter ord threaded xs ys max1 max2 bs)) (fun r => Done (out_type (CombModel.out_width size), r)))))
         | _, _ => Error
         end).

(* Convert.cpp:2181-2290: the type of the new group numbers, the numbers, the first rows, the number of groups; [junk]: what memory that is not
   initialised holds *)
Definition CombineAccum1Call (junk : nat -> Z) (index : arg Z) (max1 : Z) (filter : param Z) : outcome (Z * list Z * list Z * Z) :=
  if negb (int64_ok max1) then Error
  else obind (check_filter false (a_len index) filter) (fun f =>
       if negb (int64_ok (max1 + 1)) then Undefined
       else if (max1 + 1 <? 0) || (2000000000 <? max1 + 1) then Error
       else match index_bits (a_dtype index) with
       | None => Error
       | Some w =>
           obind (undef (read_arg index)) (fun xs => obind (read_filter f) (fun bs =>
           obind (lift (CombModel.CombineAccum1Filter w xs max1 bs (map junk (seq 0 (Z.to_nat (a_len index)))))) (fun r =>
           let '(out, first, count) := r in Done (a_dtype index, out, first, count))))
       end).

(* Convert.cpp:2421-2525.  An unsupported type returns NULL with no exception set, which Python turns into a SystemError *)
Definition MakeiFirstCall (index : arg Z) (max1 : Z) (filter : param Z) (last : Z) : outcome (list Z) :=
  if negb (int64_ok max1 && int64_ok last) then Error
  else obind (check_filter false (a_len index) filter) (fun f =>
       if negb (int64_ok (max1 + 1)) then Undefined
       else if (max1 + 1 <? 0) || (20000000000 <? max1 + 1) then Error
       else match index_bits (a_dtype index) with
       | None => Error
       | Some _ =>
           obind (undef (read_arg index)) (fun xs => obind (read_filter f) (fun bs =>
           lift (CombModel.MakeiFirst xs max1 bs (negb (last =? 0)))))
       end).

(* Convert.cpp:2563-2598 and 2529-2558: the characters of the memory of the array afterwards.  Items of [size] characters: bytes, or numbers of 32
   bits for unicode strings *)
Definition RemoveTrailingSpacesCall (size : nat) (a : arg (list Z)) : outcome (list Z) :=
  if (a_dtype a =? 18) || (a_dtype a =? 19) then
    obind (undef (read_arg a)) (fun items =>
    let before := (Z.to_nat (a_start a) * size)%nat in
    let r := CombModel.TrailingSpaces (length items) size (concat items) in
    Done (firstn before (concat (a_mem a)) ++ r ++ skipn (before + length r) (concat (a_mem a))))
  else Error.
