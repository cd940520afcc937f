(** Model of Sort, SortInPlace, SortInPlaceIndirect and IsSorted of /repo/src/Sort.cpp from their arguments to their results: the checks of the
    arguments, the choice of the function for the type of the array and the call.  The sorts are those of SortModel, the arrays those of EaModel.
    Simplified: arrays have one dimension and hold no objects; memory can always be had; strides are multiples of the item size; finite numbers are
    integers in some unit; char is signed.  No proofs in this file. *)
From Verif Require Import Base Mem Num AllModel EaModel.
From Verif Require SortModel BnModel.
Local Open Scope Z_scope.

(* numbers, or items of [size] bytes: byte strings (18), unicode strings (19), raw items (20) *)
Inductive items := Nums (a : arg fl) | Texts (size : Z) (a : arg (list Z)).
(* the elements of a result or of the memory of an array; those of text are its bytes *)
Inductive content := Numbers (l : list fl) | Bytes (l : list Z).

(* Sort.h:7-12; None: no case of the switches Sort.cpp:2690-2703 and 2720-2733 *)
Definition mode_of (mode : Z) : option SortModel.sort_mode :=
  match mode with 1 => Some SortModel.QSORT | 2 => Some SortModel.MERGE | 3 => Some SortModel.HEAP | _ => None end.

(* Sort.cpp:78-95: integers are compared by <, floating point numbers with NaN last *)
Definition value_lt (d : Z) (x y : fl) : bool := if BnModel.is_float d then SortModel.COMPARE_LT_float true x y else flt x y.
(* Sort.cpp:2868-2870 and 91-94: bytes compared as char *)
Definition signed (b : Z) : Z := if b <? 128 then b else b - 256.
Definition char_lt (x y : Z) : bool := SortModel.COMPARE_LT_int true (signed x) (signed y).

Section Sr.
  (* the conversion to float, and what memory that is not initialised holds *)
  Context (single : fl -> fl) (junk : nat -> fl) (junk_bytes : nat -> Z).

  (* Sort.cpp:2727: mergesort_float compares as float *)
  Definition merge_lt (d : Z) (x y : fl) : bool := if BnModel.is_float d then value_lt d (single x) (single y) else value_lt d x y.
  (* Sort.cpp:2864-2913 SortArray for numbers; other types are not touched *)
  Definition sort_values (mode d : Z) (vs : list fl) : option (list fl) :=
    if (0 <=? d) && (d <=? 13) then
      match mode_of mode with
      | Some m => SortModel.SortArray (value_lt d) (merge_lt d) m (map junk (seq 0 (length vs))) vs
      | None => Some vs
      end
    else Some vs.
  (* Sort.cpp:2868-2870: the first n bytes of n byte strings; unicode and raw items are not touched *)
  Definition sort_bytes (mode d : Z) (n : nat) (bytes : list Z) : option (list Z) :=
    if d =? 18 then
      match mode_of mode with
      | Some m => match SortModel.SortArray char_lt char_lt m (map junk_bytes (seq 0 n)) (firstn n bytes) with Some r => Some (r ++ skipn n bytes) | None => None end
      | None => Some bytes
      end
    else Some bytes.

  (* Sort.cpp:2917-2940: the memory of the array afterwards *)
  Definition SortInPlaceCall (mode : Z) (x : items) : outcome content :=
    if negb (BnModel.int32_ok mode) then Error
    else match x with
    | Nums a =>
        obind (undef (read_arg a)) (fun vs =>
        obind (undef (sort_values mode (a_dtype a) vs)) (fun r =>
          Done (Numbers (firstn (Z.to_nat (a_start a)) (a_mem a) ++ r ++ skipn (Z.to_nat (a_start a) + length r) (a_mem a)))))
    | Texts size a =>
        obind (undef (read_arg a)) (fun _ =>
        let before := Z.to_nat (a_start a * size) in
        let bytes := concat (a_mem a) in
        obind (undef (sort_bytes mode (a_dtype a) (Z.to_nat (a_len a)) (skipn before bytes))) (fun r => Done (Bytes (firstn before bytes ++ r))))
    end.

  (* Sort.cpp:3031-3065.  The elements are copied one after the other whatever the stride; RipTide.cpp:668-677: the new array for items of text has
     items of one byte, so that the copy of larger items goes past its end *)
  Definition SortCall (mode : Z) (x : items) : outcome content :=
    if negb (BnModel.int32_ok mode) then Error
    else match x with
    | Nums a =>
        obind (undef (read_arg a)) (fun vs =>
        obind (undef (sort_values mode (a_dtype a) vs)) (fun r => Done (Numbers r)))
    | Texts size a =>
        if (1 <? size) && (0 <? a_len a) then Undefined
        else obind (undef (read_arg a)) (fun vs =>
             obind (undef (sort_bytes mode (a_dtype a) (Z.to_nat (a_len a)) (concat vs))) (fun r => Done (Bytes r)))
    end.
End Sr.

(* Sort.cpp:2973-2976, 2991-2994, 3008-3011: for i: inverseSort[pSort[i]] = i *)
Fixpoint invert (i : Z) (sort : list Z) (inverse : list Z) : option (list Z) :=
  match sort with
  | [] => Some inverse
  | s :: rest => match zwr inverse s i with Some inverse => invert (i + 1) rest inverse | None => None end
  end.
(* Sort.cpp:2967, 2985 and 3002: the bytes of a key; None: other types, which are not touched.  The counters of the loops are int except for (7, 7) and
   the first loop of (5, 7) *)
Definition key_bytes (dkey dsort : Z) : option Z :=
  if (dkey =? 5) && (dsort =? 5) then Some 4
  else if (dkey =? 5) && (dsort =? 7) then Some 4
  else if (dkey =? 7) && (dsort =? 7) then Some 8 else None.
(* Sort.cpp:2951-3026: the memory of the keys afterwards; [junk]: what the workspace held.  Simplified: an int that overflows as a counter is undefined *)
Definition SortInPlaceIndirectCall (junk : nat -> Z) (key sort : arg Z) : outcome (list Z) :=
  match key_bytes (a_dtype key) (a_dtype sort) with
  | None => Done (a_mem key)
  | Some b =>
      obind (undef (read_arg key)) (fun ks =>
      obind (undef (read_arg sort)) (fun ss =>
      if ((b =? 4) && (2 ^ 31 <=? a_len key)) || ((a_dtype sort =? 5) && (2 ^ 31 <=? a_len sort)) then Undefined
      else
        obind (undef (invert 0 ss (map junk (seq 0 (length ss))))) (fun inverse =>
        obind (undef (Par.all_some (map (zrd inverse) ks))) (fun r =>
          Done (firstn (Z.to_nat (a_start key)) (a_mem key) ++ map (wrapT (CI b)) r ++ skipn (Z.to_nat (a_start key) + length r) (a_mem key))))))
  end.

(* the code points of an item of text: 4 bytes each, Sort.cpp:121-138 *)
Fixpoint code_points (s : list Z) : list Z :=
  match s with b0 :: b1 :: b2 :: b3 :: r => SortModel.le_word [b0; b1; b2; b3] :: code_points r | _ => [] end.
(* Sort.cpp:3216-3340; [ord], [threaded], [seen]: as in SortModel *)
Definition IsSortedCall (ord : sched) (threaded : bool) (seen : nat -> bool) (x : items) : outcome bool :=
  let gaps {X} (a : arg X) := (1 <? a_len a) && negb (a_step a =? 1) in
  match x with
  | Nums a =>
      if gaps a then Error
      else if negb ((0 <=? a_dtype a) && (a_dtype a <=? 13)) then Error
      else obind (undef (read_arg a)) (fun vs =>
           undef (SortModel.IsSorted (fun x y => fle y x) (if BnModel.is_float (a_dtype a) then is_nan else fun _ => false) ord threaded seen vs))
  | Texts _ a =>
      if gaps a then Error
      else match (match a_dtype a with
                  | 18 => Some (SortModel.STRING_LT true)
                  | 19 => Some (fun s t => SortModel.UNICODE_LT true (code_points s) (code_points t))
                  | 20 => Some (SortModel.VOID_LT true)
                  | _ => None
                  end) with
           | None => Error
           | Some lt => obind (undef (read_arg a)) (fun vs => undef (SortModel.IsSorted (fun x y => negb (lt x y)) (fun _ => false) ord threaded seen vs))
           end
  end.
