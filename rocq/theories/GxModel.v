(** Model of MBGet of /repo/src/Merge.cpp from its arguments to its result.  The function itself is that of MergeModel, the arrays those of EaModel; the
    elements of the values are lists of bytes.  Simplified: arrays have one dimension; strides are multiples of the item size; memory can always be had; an
    access outside of the memory of an array counts as undefined also if the element is not needed.  No proofs in this file. *)
From Verif Require Import Base Mem AllModel EaModel.
From Verif Require MergeModel WnModel BxModel.
Local Open Scope Z_scope.

(* Merge.cpp:1130-1274 GetItemFunction, CommonInc.h:110-117: the types of an index *)
Definition index_kind (d : Z) : option MergeModel.index_type :=
  match d with
  | 1 => Some (MergeModel.mkIT 8 false) | 2 => Some (MergeModel.mkIT 8 true)
  | 3 => Some (MergeModel.mkIT 16 false) | 4 => Some (MergeModel.mkIT 16 true)
  | 5 => Some (MergeModel.mkIT 32 false) | 6 => Some (MergeModel.mkIT 32 true)
  | 7 | 9 => Some (MergeModel.mkIT 64 false) | 8 | 10 => Some (MergeModel.mkIT 64 true)
  | _ => None
  end.
(* Merge.cpp:1383-1403: [invalid]: the bytes of the invalid value of the type of the values; [given]: the third argument, None: not given or the object None,
   Some None: something that cannot be converted *)
Definition default_bytes (invalid : list Z) (given : option (option (list Z))) : list Z := match given with Some (Some b) => b | _ => invalid end.
(* Merge.cpp:1294-1466; [size]: the item size of the values; the type and the elements of the result *)
Definition MBGetCall (ord1 ord2 : sched) (threaded : bool) (chunk : nat) (junk : Z) (junk2 : list Z) (size : Z) (invalid : list Z) (given : option (option (list Z)))
    (vals : param (list Z)) (index : param Z) : outcome (Z * list (list Z)) :=
  match vals, index with
  | PArray v, PArray i =>
      if 13 <? a_dtype i then Error
      else if a_dtype i =? 0 then BxModel.BooleanIndexCall ord1 ord2 threaded chunk junk junk2 size (PArray v) (PArray i)
      else if a_len i =? 0 then Done (a_dtype v, [])
      else match index_kind (a_dtype i) with
           | None => Error
           | Some t =>
               obind (undef (WnModel.copy_arg v)) (fun vs =>
               obind (undef (WnModel.copy_arg i)) (fun is =>
               obind (undef (MergeModel.MBGet vs (default_bytes invalid given) ord1 threaded chunk t size (size * BxModel.stride_of v) is junk2))
                 (fun r => Done (a_dtype v, r))))
           end
  | _, _ => Error
  end.
