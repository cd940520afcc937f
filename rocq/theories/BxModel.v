(** Model of BooleanSum, BooleanToFancy and BooleanIndex of /repo/src/Merge.cpp from their arguments to their results.  The functions themselves are those of
    MergeModel, the arrays those of EaModel; the elements of a mask are bytes, those of the values lists of bytes.  Simplified: arrays have one dimension;
    strides are multiples of the item size; memory can always be had; an access outside of the memory of an array counts as undefined also if the element is not
    needed.  No proofs in this file. *)
From Verif Require Import Base Mem AllModel EaModel.
From Verif Require MergeModel WnModel.
Local Open Scope Z_scope.

(* RipTide.cpp:2310-2320 for one dimension: the stride of an array of at most one element is its item size *)
Definition stride_of {X} (a : arg X) : Z := if 1 <? a_len a then a_step a else 1.
(* the byte of a mask, the element of an array, so many bytes behind its first one *)
Definition mask_memory (a : arg Z) (p : Z) : Z := nth (Z.to_nat (a_start a + p)) (a_mem a) 0.
Definition value_memory (size : Z) (a : arg (list Z)) (p : Z) : list Z := nth (Z.to_nat (a_start a + p / size)) (a_mem a) [].

(* Merge.cpp:728-759 *)
Definition BooleanSumCall (ord : sched) (threaded : bool) (chunk : nat) (junk : Z) (mask : param Z) : outcome Z :=
  match mask with
  | PArray m =>
      if negb (a_dtype m =? 0) then Error
      else obind (undef (WnModel.copy_arg m)) (fun l => undef (MergeModel.BooleanSum ord threaded chunk (mask_memory m) (stride_of m) (length l) junk))
  | _ => Error
  end.
(* Merge.cpp:1492-1705; the type and the elements of the index, and the number of rows that are set if [both] is given.  The second pass looks at no
   strides *)
Definition BooleanToFancyCall (ord1 ord2 : sched) (threaded : bool) (chunk : nat) (both : bool) (junk1 junk2 : Z) (mask : param Z) : outcome (Z * list Z * option Z) :=
  match mask with
  | PArray m =>
      if negb (a_dtype m =? 0) then Error
      else obind (undef (WnModel.copy_arg m)) (fun l =>
           obind (undef (read_arg m)) (fun _ =>
           obind (undef (MergeModel.BooleanToFancy ord1 ord2 threaded chunk (mask_memory m) (stride_of m) (length l) both junk1 junk2)) (fun r =>
           Done (if a_len m <? 2000000000 then 5 else 7, fst r, if both then Some (snd r) else None))))
  | _ => Error
  end.
(* Merge.cpp:248-720; [size]: the item size of the values; the type and the elements of the result *)
Definition BooleanIndexCall (ord1 ord2 : sched) (threaded : bool) (chunk : nat) (junk : Z) (junk2 : list Z) (size : Z) (vals : param (list Z)) (mask : param Z) :
    outcome (Z * list (list Z)) :=
  match vals, mask with
  | PArray v, PArray m =>
      if negb (a_dtype m =? 0) then Error
      else if negb (a_len m =? a_len v) then Error
      else obind (undef (WnModel.copy_arg v)) (fun _ =>
           obind (undef (WnModel.copy_arg m)) (fun l =>
           obind (undef (MergeModel.BooleanIndex (mask_memory m) (value_memory size v) ord1 ord2 threaded chunk size (stride_of m) (size * stride_of v) (length l) junk junk2))
             (fun r => Done (a_dtype v, r))))
  | _, _ => Error
  end.
