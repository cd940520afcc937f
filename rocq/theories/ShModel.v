(** Model of ShiftArrays of /repo/src/Convert.cpp from its arguments to its effect, for arrays of one dimension.  The shift itself is that of CombModel; an
    element of an array is the list of its bytes.  Simplified: the first argument is a list, a tuple or an array; the arrays have their memory for
    themselves; strides are multiples of the item size; memory can always be had.  No proofs in this file. *)
From Verif Require Import Base Mem AllModel EaModel.
From Verif Require BnModel WnModel CombModel MkModel.
Local Open Scope Z_scope.

(* MultiKey.cpp:198-296 without checkrows: the elements that are shifted, those of a copy if the array has gaps *)
Definition take (c : MkModel.key_column) : outcome (option (list (list Z))) :=
  match c with
  | MkModel.KNone => Done None
  | MkModel.KArray _ a => if MkModel.known_type (a_dtype a) then obind (BnModel.mlp_read a) (fun l => Done (Some l)) else Error
  | MkModel.KOther => Error
  end.
(* Convert.cpp:3100-3203: one column; the memory of its array afterwards.  The difference of line 3172 is taken before the sign of the amount is looked at,
   and it may overflow *)
Definition shift_one (k : Z) (c : MkModel.key_column) : outcome (list (list Z)) :=
  obind (take c) (fun o =>
  match c, o with
  | MkModel.KArray _ a, Some l =>
      if 2 ^ 63 <=? Z.of_nat (length l) - k then Undefined else
      match CombModel.ShiftArray [length l] [1] k l with
      | Some l' => Done (if WnModel.contiguous a
                         then firstn (Z.to_nat (a_start a)) (a_mem a) ++ l' ++ skipn (Z.to_nat (a_start a + a_len a)) (a_mem a) else a_mem a)
      | None => Undefined
      end
  | _, _ => Done []
  end).
(* Convert.cpp:3067-3215.  All arrays are looked at before one is shifted *)
Definition ShiftArraysCall (cols : list MkModel.key_column) (k : Z) : outcome (list (list (list Z))) :=
  if negb (int64_ok k) then Error
  else obind (each take cols) (fun _ => each (shift_one k) cols).
