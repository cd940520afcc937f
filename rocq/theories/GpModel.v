(** Model of GroupByPack32 of /repo/src/MultiKey.cpp from its arguments to its results.  The functions themselves are those of GroupModel, the arrays those
    of EaModel.  Simplified: arrays have one dimension; strides are multiples of the item size; memory can always be had; a negative number of groups, 2^31
    groups or rows or more, and a next array whose items have not 4 bytes count as undefined.  No proofs in this file. *)
From Verif Require Import Base Mem AllModel EaModel.
From Verif Require GroupModel.
Local Open Scope Z_scope.

(* MultiKey.cpp:873-891 and 909-931, CommonInc.h:110-117: the types of the keys; others are an error *)
Definition key_type (d : Z) : bool := (d =? 1) || (d =? 3) || (d =? 5) || (d =? 7) || (d =? 9).
(* MultiKey.cpp:900: the next array is taken for one of int32 whatever its type; these have 4 bytes (int32, uint32, float32) *)
Definition four_bytes (d : Z) : bool := (d =? 5) || (d =? 6) || (d =? 11).
(* MultiKey.cpp:841-955; [junk]: what new arrays held.  Only the addresses of the first elements are passed on.  Any object that is no array means that
   there is no next array *)
Definition GroupByPack32Call (junk : nat -> list Z) (keys next : param Z) (unique : Z) : outcome (list Z * list Z * list Z) :=
  match keys with
  | PArray a =>
      if negb (int64_ok unique) then Error
      else if negb (match next with PArray b => a_len a =? a_len b | _ => true end && key_type (a_dtype a)) then Error
      else if (unique <? 0) || (2 ^ 31 - 1 <=? unique) || (2 ^ 31 <=? a_len a) then Undefined
      else obind (undef (read_arg a)) (fun ks =>
           let rows := junk (length ks) in
           let groups := junk (Z.to_nat (unique + 1)) in
           obind match next with
                 | PArray b => if four_bytes (a_dtype b) then obind (undef (read_arg b)) (fun nx => undef (GroupModel.GroupByPack32_next ks nx unique rows groups groups))
                               else Undefined
                 | _ => undef (GroupModel.GroupByPack32 ks unique rows groups groups rows)
                 end (fun p => Done (GroupModel.p_sort p, GroupModel.p_first p, GroupModel.p_count p)))
  | _ => Error
  end.
