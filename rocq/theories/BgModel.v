(** Model of BinCount, GroupFromBinCount and MakeiNext of /repo/src/MultiKey.cpp from their arguments to their results: the checks of the arguments, the
    types, the choice of the function and the arrays returned.  The functions themselves are those of GroupModel, the arrays those of EaModel.
    Simplified: arrays have one dimension; strides are multiples of the item size; memory can always be had, except for arrays of negative length.
    No proofs in this file. *)
From Verif Require Import Base Mem AllModel EaModel.
From Verif Require GroupModel.
Local Open Scope Z_scope.

(* MultiKey.cpp:2242-2290, 2006-2057 and 1892-1944, CommonInc.h:110-117: the types of the keys there is a function for; otherwise the null pointer that
   is returned is called *)
Definition has_function (d : Z) : bool := (d =? 1) || (d =? 3) || (d =? 5) || (d =? 7) || (d =? 9).
(* MultiKey.cpp:2433-2436 and 2075-2080 *)
Definition row_dtype (n : Z) : Z := if 2000000000 <? n then 7 else 5.
(* what is given for pack *)
Inductive pack_arg := NotGiven | Boolean (b : bool) | NoBoolean.
(* MultiKey.cpp:2359-2375 *)
Definition get_pack (p : pack_arg) : bool := match p with Boolean b => b | _ => false end.

(* one array, or three of the same type *)
Inductive counts := Counts (dtype : Z) (ncount : list Z) | Packed (dtype : Z) (ncount igroup ifirst : list Z).
(* MultiKey.cpp:2391-2668.  Only the address of the first key is passed on; [junk]: what the new array held *)
Definition BinCountCall (ord : sched) (threading : bool) (futex : Z) (junk : nat -> list Z) (keys : param Z) (unique : Z) (pack : pack_arg) : outcome counts :=
  match keys with
  | PArray a =>
      if negb (int64_ok unique) then Error
      else if (unique =? 0) || (a_len a <=? 0) then Error
      else if unique <? 0 then Error
      else if negb (has_function (a_dtype a)) then Undefined
      else obind (undef (read_arg a)) (fun ks =>
           match GroupModel.BinCount ord threading (get_pack pack) futex ks unique (junk (length ks)) with
           | GroupModel.BC_error => Error
           | GroupModel.BC_oob => Undefined
           | GroupModel.BC_counts c => Done (Counts (row_dtype (a_len a)) c)
           | GroupModel.BC_packed c g f => Done (Packed (row_dtype (a_len a)) c g f)
           end)
  | _ => Error
  end.

(* MultiKey.cpp:2059-2200; [mix]: the order in which the steps of the threads happen.  The type, iGroup and iFirstGroup *)
Definition GroupFromBinCountCall (mix : list (list GroupModel.gop) -> list GroupModel.gop) (threading : bool) (futex : Z) (junk : nat -> list Z)
    (keys count : param Z) : outcome (Z * list Z * list Z) :=
  match keys, count with
  | PArray a, PArray c =>
      if negb (row_dtype (a_len a) =? a_dtype c) then Error
      else if negb (has_function (a_dtype a)) then Undefined
      else obind (undef (read_arg a)) (fun ks => obind (undef (read_arg c)) (fun ncount =>
           match GroupModel.GroupFromBinCount (mix (GroupModel.gfb_programs threading futex ks ncount)) ncount (junk (length ks)) with
           | Some (igroup, ifirst) => Done (row_dtype (a_len a), igroup, ifirst)
           | None => Undefined
           end))
  | _, _ => Error
  end.

(* the bits of an item of the signed types *)
Definition bits_of (d : Z) : Z := if d =? 1 then 8 else if d =? 3 then 16 else if d =? 5 then 32 else 64.
(* MultiKey.cpp:554-606.  The type and the rows *)
Definition MakeiNextCall (junk : nat -> list Z) (keys : param Z) (unique mode : Z) : outcome (Z * list Z) :=
  match keys with
  | PArray a =>
      if negb (int64_ok unique && int64_ok mode) then Error
      else if (10 <=? a_dtype a) || Z.even (a_dtype a) then Error
      else if negb (int64_ok (unique + 1)) then Undefined
      else obind (undef (read_arg a)) (fun ks =>
           match GroupModel.MakeiNext (bits_of (a_dtype a)) (negb (mode =? 0)) ks unique (junk (length ks)) with
           | Some r => Done (a_dtype a, r)
           | None => Undefined
           end)
  | _ => Error
  end.
