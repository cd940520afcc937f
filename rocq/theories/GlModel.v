(** Model of GroupFromLexSort of /repo/src/Sort.cpp from its arguments to its results: the checks of the arrays, the keywords cutoffs, filter and
    base_index, and the choice of the item size.  The loops are those of SortModel.
    Simplified: memory can always be had; all of memory that is not initialised holds one number; strides are multiples of the item size; an array is
    read from its first element on even if no row needs it (an array that does not have the memory for that counts as undefined).
    No proofs in this file. *)
From Verif Require Import Base Mem SortModel AllModel EaModel LxModel.
Local Open Scope Z_scope.

(* the arrays that are returned: their type, keys, first rows, counts, and with cutoffs= the numbers of groups; then the elements of the index that
   was given, as they are after the call *)
Record groups := mkGroups { g_dtype : Z; g_keys : list Z; g_first : list Z; g_count : list Z; g_uniques : option (list Z); g_index : list Z }.

(* Sort.cpp:3663-3680: what is no integer is ignored; an integer that is no long leaves an exception behind *)
Definition base_index (b : option Z) : outcome Z :=
  match b with
  | Some z => if (- 2 ^ 63 <=? z) && (z <? 2 ^ 63) then Done (if z =? 0 then 0 else 1) else Error
  | None => Done 1
  end.
(* Sort.cpp:3639-3661, 3946-3949: only the length of the filter is used *)
Definition check_filter (n : Z) (f : param bool) : outcome unit :=
  match f with PArray a => if (a_dtype a =? 0) && negb (a_len a =? n) then Error else Done tt | _ => Done tt end.

(* Sort.cpp:3926-4321, GroupFromLexSortInternal.  [size]: of an item of the values; [bits]: of the index type *)
Definition GroupCall (junk : Z) (bits : Z) (index : arg Z) (size : nat) (values : arg (list Z)) (cutoffs : param Z) (filter : param bool) (base : option Z)
  : outcome groups :=
  let n := a_len index in
  let out := if bits =? 32 then 5 else 7 in
  obind (read_cutoffs n cutoffs) (fun cut =>
  obind (check_filter n filter) (fun _ =>
  obind (base_index base) (fun base =>
    if (bits =? 32) && (2 ^ 31 <=? n) then Undefined
    else
      obind (undef (read_arg index)) (fun ix =>
      obind (undef (read_arg values)) (fun vs =>
        match cut with
        | Some ends =>
            if forallb (fun p => 0 <=? snd p) (parts 0 ends) then
              obind (undef (GroupFromLexSort_cutoffs item_differ (item_shift size) vs ix junk ends)) (fun r =>
                let '(keys, idx, first, cnt, us) := r in
                Done (mkGroups out (keys ++ repeat junk (length vs - length keys)) first cnt (Some us) (seen index (replaced index idx))))
            else Undefined
        | None =>
            obind (undef (GroupFromLexSort item_differ (item_shift size) base vs ix junk)) (fun r =>
              let '(keys, first, cnt) := r in Done (mkGroups out keys first cnt None (seen index (a_mem index))))
        end))))).

(* Sort.cpp:4340-4381 *)
Definition GroupFromLexSortAll (junk : Z) (index : arg Z) (size : nat) (values : arg (list Z)) (cutoffs : param Z) (filter : param bool) (base : option Z)
  : outcome groups :=
  if a_len values <? a_len index then Error
  else match a_dtype index with
       | 5 => GroupCall junk 32 index size values cutoffs filter base
       | 7 | 9 => GroupCall junk 64 index size values cutoffs filter base
       | _ => Error
       end.
