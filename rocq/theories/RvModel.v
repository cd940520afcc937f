(** Model of ReverseShuffle and ReIndexGroups of /repo/src/Merge.cpp from their arguments to their effects.  The functions themselves are those of
    MergeModel, the arrays those of EaModel.  Simplified: arrays have one dimension; strides are multiples of the item size; memory can always be had; the four
    arrays of ReIndexGroups do not share memory; numbers of another type but of the right size, whose bits are taken for those of a signed integer, and
    2^31 partitions or more count as undefined.  No proofs in this file. *)
From Verif Require Import Base Mem AllModel EaModel.
From Verif Require MergeModel MwModel.
Local Open Scope Z_scope.

(* the signed integer types of 8, 16, 32 and 64 bits *)
Definition bits (d : Z) : option Z := match d with 1 => Some 8 | 3 => Some 16 | 5 => Some 32 | 7 | 9 => Some 64 | _ => None end.
(* Merge.cpp:1932-1990; [junk]: what the new array held *)
Definition ReverseShuffleCall (ord : sched) (threaded : bool) (chunk : nat) (junk : Z) (keys : param Z) : outcome (Z * list Z) :=
  match keys with
  | PArray a =>
      if (10 <=? a_dtype a) || Z.even (a_dtype a) then Error
      else match bits (a_dtype a) with
           | Some w => obind (undef (read_arg a)) (fun ks => obind (undef (MergeModel.ReverseShuffle ord threaded chunk w ks junk)) (fun out => Done (a_dtype a, out)))
           | None => Error
           end
  | _ => Error
  end.

(* an array and its item size *)
Record sized := mkSized { s_bytes : Z; s_arg : arg Z }.
(* its elements, if they are signed integers *)
Definition integers (s : sized) : outcome (list Z) :=
  match bits (a_dtype (s_arg s)) with Some w => if w =? 8 * s_bytes s then undef (read_arg (s_arg s)) else Undefined | None => Undefined end.
(* Merge.cpp:1772-1890; [order]: the order in which the partitions are done.  Only the item sizes are looked at; the result is the memory of the keys *)
Definition ReIndexGroupsCall (order : list nat) (keys uniques ucut icut : option sized) : outcome (list Z) :=
  match keys, uniques, ucut, icut with
  | Some k, Some u, Some uc, Some ic =>
      if negb (s_bytes uc =? 8) then Error
      else if negb (s_bytes ic =? 8) then Error
      else if negb (s_bytes u =? 4) then Error
      else if negb ((s_bytes k =? 1) || (s_bytes k =? 2) || (s_bytes k =? 4) || (s_bytes k =? 8)) then Error
      else obind (integers uc) (fun ucs =>
           obind (integers ic) (fun ics =>
           obind (integers u) (fun us =>
           obind (integers k) (fun ks =>
           if (length ics <? length ucs)%nat || (2 ^ 31 <=? a_len (s_arg uc)) then Undefined
           else obind (undef (MergeModel.ReIndexGroups (8 * s_bytes k) us ucs (firstn (length ucs) ics) order ks)) (fun l =>
                Done (MwModel.put_back (s_arg k) l))))))
  | _, _, _, _ => Error
  end.
