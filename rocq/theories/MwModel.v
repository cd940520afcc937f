(** Model of SetItem and PutMask of /repo/src/Convert.cpp from their arguments to their effects.  The functions themselves are those of MaskModel and
    ConvModel, the arrays those of EaModel.  Simplified: three arguments are given; masks and the arrays of PutMask have one dimension; an array does not
    share memory with another; strides are multiples of the item size; an access outside of the memory of an array counts as undefined also if no row of the
    mask is set there.  No proofs in this file. *)
From Verif Require Import Base Mem AllModel EaModel.
From Verif Require ConvModel MaskModel.
Local Open Scope Z_scope.

(* what is given for the values: an array, or something of which NumPy makes one, or something of which it cannot make one (then an exception is set) *)
Inductive values (X : Type) := Values (v : X) | NoValues.
Arguments Values {X} v.
Arguments NoValues {X}.
(* an array of SetItem: the number of its dimensions, its item size, its items as bytes *)
Record array := mkArray { r_dims : Z; r_size : Z; r_items : arg (list Z) }.

(* the memory of an array when its items, one after the other, have become [l] *)
Definition put_back {X} (a : arg X) (l : list X) : list X :=
  firstn (Z.to_nat (a_start a)) (a_mem a) ++ l ++ skipn (Z.to_nat (a_start a + a_len a)) (a_mem a).
Definition finish {X} (a : arg X) (r : option (option (list X))) : outcome (option (list X)) :=
  match r with None => Undefined | Some None => Done None | Some (Some l) => Done (Some (put_back a l)) end.

(* Convert.cpp:3782-3866; the result: None: False, left to NumPy; Some: True, and the memory of the array.  False with an exception set is an error.
   No strides are looked at *)
Definition SetItemCall (ord : sched) (arr : option array) (mask : option (arg Z)) (vals : values array) : outcome (option (list (list Z))) :=
  match vals with
  | NoValues => Error
  | Values v =>
      match arr, mask with
      | Some a, Some m =>
          if (r_dims a =? 1) && (0 <? r_size a) && (r_dims v =? 1) && (r_size v =? r_size a) && (a_dtype (r_items a) =? a_dtype (r_items v)) &&
             (a_dtype m =? 0) && (a_len (r_items a) =? a_len m)
          then obind (undef (read_arg (r_items a))) (fun xs =>
               obind (undef (read_arg m)) (fun bs =>
               obind (undef (read_arg (r_items v))) (fun vs => finish (r_items a) (MaskModel.SetItem ord xs bs vs))))
          else Done None
      | _, _ => Done None
      end
  end.

(* Convert.cpp:3875-3974.  If the values are no array, a null pointer is followed once the other two arguments are found to be arrays *)
Definition PutMaskCall (ord : sched) (threaded : bool) (arr : option (arg ConvModel.val)) (mask : option (arg bool)) (vals : values (arg ConvModel.val)) :
    outcome (option (list ConvModel.val)) :=
  match arr, mask with
  | Some a, Some m =>
      match vals with
      | NoValues => Undefined
      | Values v =>
          if (a_dtype m =? 0) && (a_len a =? a_len m) && ((a_len a <=? 1) || (a_step a =? 1)) && (a_len a =? a_len v)
          then match ConvModel.of_num (a_dtype v), ConvModel.of_num (a_dtype a) with
               | Some t, Some u =>
                   obind (undef (read_arg a)) (fun xs =>
                   obind (undef (read_arg m)) (fun bs =>
                   obind (undef (read_arg v)) (fun vs => finish a (ConvModel.PutMask ord threaded t u false xs bs vs))))
               | _, _ => Done None
               end
          else Done None
      end
  | _, _ => match vals with NoValues => Error | Values _ => Done None end
  end.
