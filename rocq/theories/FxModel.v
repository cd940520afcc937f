(** Model of IsMemberCategoricalFixup of /repo/src/HashFunctions.cpp from its arguments to its results.  The function itself is that of HashModel, the arrays
    those of EaModel.  Simplified: arrays have one dimension; strides are multiples of the item size; memory can always be had; negative base offsets and
    numbers of uniques count as undefined.  No proofs in this file. *)
From Verif Require Import Base Mem AllModel EaModel.
From Verif Require HashModel BnModel.
Local Open Scope Z_scope.

(* HashFunctions.cpp:428-446 and 456-474, CommonInc.h:110-117: the types of the category numbers; others are an error *)
Definition int_type (d : Z) : bool := (d =? 1) || (d =? 3) || (d =? 5) || (d =? 7) || (d =? 9).
Definition of_out {X} (r : HashModel.out X) : outcome X := match r with HashModel.Ret x => Done x | HashModel.Throw => Error | HashModel.UB => Undefined end.
(* missing_values.h: the invalid int32 *)
Definition invalid32 : Z := - 2 ^ 31.
(* HashFunctions.cpp:366-483; the rows of the two results.  Only the addresses of the first elements are passed on *)
Definition FixupCall (arr1 arr2 uniq : param Z) (len2 base1 base2 : Z) : outcome (list (bool * Z)) :=
  match arr1, arr2, uniq with
  | PArray a, PArray b, PArray u =>
      if negb (BnModel.int32_ok len2 && BnModel.int32_ok base1 && BnModel.int32_ok base2) then Error
      else if 2 ^ 31 - 1 <? a_len u then Error
      else if negb (a_dtype u =? 5) then Error
      else if negb (int_type (a_dtype b)) then Error
      else if (len2 <? 0) || (base1 <? 0) || (base2 <? 0) then Undefined
      else obind (undef (read_arg u)) (fun us =>
           obind (undef (read_arg b)) (fun bs =>
           obind (of_out (HashModel.FindFirstOccurence invalid32 base2 bs us (Z.to_nat len2))) (fun reidx =>
           if negb (int_type (a_dtype a)) then Error
           else obind (undef (read_arg a)) (fun xs => of_out (HashModel.all_ret (map (HashModel.final_row invalid32 base1 reidx) xs))))))
  | _, _, _ => Error
  end.
