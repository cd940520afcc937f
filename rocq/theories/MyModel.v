(** Model of MergeBinnedAndSorted of /repo/src/HashLinear.cpp from its arguments to its result.  The function itself is that of HashModel, the arrays those of
    EaModel.  Simplified: arrays have one dimension; strides are multiples of the item size; memory can always be had; keys of another type than the values,
    whose bits are misread, negative numbers of uniques, and numbers of rows or uniques that the type of the values cannot hold, count as undefined.  No
    proofs in this file. *)
From Verif Require Import Base Mem AllModel EaModel.
From Verif Require HashModel RvModel FxModel.
Local Open Scope Z_scope.

(* RipTide.cpp:188-196 ObjectToDtype *)
Definition type_code (d : Z) : Z := if (d <? 0) || (20 <? d) then -1 else d.
(* HashLinear.cpp:6205-6229 and 4855-4879, CommonInc.h:110-117: the types that get through both switches: int32 and int64; int8 and int16 stop at the second,
   the floats at the first *)
Definition key_bits (d : Z) : option Z := match d with 5 => Some 32 | 7 | 9 => Some 64 | _ => None end.
(* HashLinear.cpp:6152-6237; the type and the elements of the result.  The keys are taken to be of the type of the values; no strides are looked at *)
Definition MergeCall (key1 key2 : param Z) (val1 val2 : option RvModel.sized) (uniques : Z) : outcome (Z * list Z) :=
  match key1, key2, val1, val2 with
  | PArray k1, PArray k2, Some v1, Some v2 =>
      let d1 := type_code (a_dtype (RvModel.s_arg v1)) in
      let d2 := type_code (a_dtype (RvModel.s_arg v2)) in
      if negb (int64_ok uniques) then Error
      else if d1 <? 0 then Error
      else if negb ((d1 =? d2) || ((d1 <=? 10) && (d2 <=? 10) && Bool.eqb (Z.odd d1) (Z.odd d2) && (RvModel.s_bytes v1 =? RvModel.s_bytes v2))) then Error
      else match key_bits d1 with
           | None => Error
           | Some w =>
               let holds a := match key_bits (a_dtype a) with Some w' => w =? w' | None => false end in
               if negb (holds k1 && holds k2) || (uniques <? 0) || (2 ^ (w - 1) <=? uniques) || (2 ^ (w - 1) <=? a_len k1) || (2 ^ (w - 1) <=? a_len k2) then Undefined
               else obind (undef (read_arg k1)) (fun ks1 =>
                    obind (undef (read_arg k2)) (fun ks2 =>
                    obind (undef (read_arg (RvModel.s_arg v1))) (fun vs1 =>
                    obind (undef (read_arg (RvModel.s_arg v2))) (fun vs2 =>
                    obind (FxModel.of_out (HashModel.FindLastMatchCategorical Z.ltb (- 2 ^ (w - 1)) ks1 ks2 vs1 vs2 (Z.to_nat uniques))) (fun r => Done (d1, r))))))
           end
  | _, _, _, _ => Error
  end.
