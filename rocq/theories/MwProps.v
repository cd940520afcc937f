(** Properties C128 and C129: SetItem and PutMask from their arguments to their effects. *)
From Verif Require Import Base Mem AllModel EaModel EaSpec.
From Verif Require Import MwModel MwSpec MwProofs.
From Verif Require ConvModel ConvSpec MaskSpec.
Local Open Scope Z_scope.

(** ** C128.  Missing: arrays, masks and values with gaps, whose strides are not looked at ([C128_mask_refuted], [C128_array_refuted]). *)
(** One value for every row that is set. *)
Theorem C128_setitem_partial : forall ord a m v, fair ord -> alike a v -> a_dtype m = 0 -> a_len m = a_len (r_items a) -> plain (r_items a) -> plain m -> plain (r_items v) ->
  Forall MaskSpec.is_byte (arg_vals 0 m) -> Z.of_nat (countb MaskSpec.set (arg_vals 0 m)) = a_len (r_items v) -> 0 < a_len (r_items v) ->
  exists mem, SetItemCall ord (Some a) (Some m) (Values v) = Done (Some mem) /\
    now_holds [] (r_items a) (ConvSpec.replaced (MaskSpec.assigned (arg_vals 0 m) (arg_vals [] (r_items v))) (arg_vals [] (r_items a))) mem.
Proof. exact setitem_call. Qed.
Print Assumptions C128_setitem_partial.
(** One value for all rows that are set, if there are more than 16384 rows. *)
Theorem C128_scalar_partial : forall ord a m v x, fair ord -> alike a v -> a_dtype m = 0 -> a_len m = a_len (r_items a) -> plain (r_items a) -> plain m -> plain (r_items v) ->
  Forall MaskSpec.is_byte (arg_vals 0 m) -> arg_vals [] (r_items v) = [x] -> 0 < Z.of_nat (countb MaskSpec.set (arg_vals 0 m)) -> 16384 < a_len (r_items a) ->
  exists mem, SetItemCall ord (Some a) (Some m) (Values v) = Done (Some mem) /\
    now_holds [] (r_items a) (ConvSpec.replaced (MaskSpec.assigned_scalar (arg_vals 0 m) x) (arg_vals [] (r_items a))) mem.
Proof. exact setitem_one. Qed.
Print Assumptions C128_scalar_partial.
(** Left to NumPy: no arrays, other types, sizes, dimensions or lengths; another number of values for an array of at most 16384 rows. *)
Theorem C128_left : forall ord arr mask v,
  match arr, mask with Some a, Some m => ~ alike a v \/ a_dtype m <> 0 \/ a_len m <> a_len (r_items a) | _, _ => True end ->
  SetItemCall ord arr mask (Values v) = Done None.
Proof. exact setitem_left. Qed.
Print Assumptions C128_left.
Theorem C128_count_partial : forall ord a m v, a_dtype m = 0 -> a_len m = a_len (r_items a) -> alike a v -> plain (r_items a) -> plain m -> plain (r_items v) ->
  Forall MaskSpec.is_byte (arg_vals 0 m) -> a_len (r_items a) <= 16384 -> Z.of_nat (countb MaskSpec.set (arg_vals 0 m)) <> a_len (r_items v) ->
  SetItemCall ord (Some a) (Some m) (Values v) = Done None.
Proof. exact setitem_count. Qed.
Print Assumptions C128_count_partial.
Theorem C128_refused : forall ord arr mask, SetItemCall ord arr mask NoValues = Error.
Proof. reflexivity. Qed.
Print Assumptions C128_refused.
(** The middle three of five elements of one byte. *)
Definition some_items : array := mkArray 1 1 (mkArg 1 [[9]; [1]; [2]; [3]; [8]] 1 1 3).
Definition some_mask : arg Z := mkArg 0 [1; 0; 1] 0 1 3.
Definition some_values : array := mkArray 1 1 (mkArg 1 [[6]; [7]] 0 1 2).
Ltac plain_ex := unfold plain, arg_ok, gapless; cbn [r_items a_len a_start a_mem a_step length]; split; [lia|]; split; [split; [lia|]; split; [lia|intros; lia]|left; reflexivity].
Example C128_example :
  alike some_items some_values /\ plain (r_items some_items) /\ plain some_mask /\ plain (r_items some_values) /\ Forall MaskSpec.is_byte (arg_vals 0 some_mask) /\
  Z.of_nat (countb MaskSpec.set (arg_vals 0 some_mask)) = 2 /\
  SetItemCall in_order (Some some_items) (Some some_mask) (Values some_values) = Done (Some [[9]; [6]; [2]; [7]; [8]]) /\
  SetItemCall in_order (Some some_items) (Some some_mask) (Values some_items) = Done None.
Proof.
  unfold some_items, some_mask, some_values. split; [unfold alike; cbn; lia|]. split; [plain_ex|]. split; [plain_ex|]. split; [plain_ex|].
  split; [vm_compute; repeat constructor; discriminate|]. vm_compute. repeat split.
Qed.
(** A mask with gaps is read as if it had none: the last of three rows is set, but the middle one is assigned. *)
Theorem C128_mask_refuted : exists m, arg_ok 3 m /\ a_dtype m = 0 /\ arg_vals 0 m = [0; 0; 1] /\
  SetItemCall in_order (Some some_items) (Some m) (Values (mkArray 1 1 (mkArg 1 [[7]] 0 1 1))) = Done (Some [[9]; [1]; [7]; [3]; [8]]).
Proof.
  exists (mkArg 0 [0; 1; 0; 0; 1] 0 2 3). split; [unfold arg_ok; cbn [a_len a_start a_mem a_step length]; split; [lia|]; split; [lia|intros; lia]|]. vm_compute. repeat split.
Qed.
Print Assumptions C128_mask_refuted.
(** An array with gaps is written as if it had none: an element between its elements is overwritten. *)
Theorem C128_array_refuted : exists a, arg_ok 2 (r_items a) /\ arg_vals [] (r_items a) = [[1]; [3]] /\
  SetItemCall in_order (Some a) (Some (mkArg 0 [1; 1] 0 1 2)) (Values some_values) = Done (Some [[6]; [7]; [3]]).
Proof.
  exists (mkArray 1 1 (mkArg 1 [[1]; [2]; [3]] 0 2 2)). split; [unfold arg_ok; cbn [r_items a_len a_start a_mem a_step length]; split; [lia|]; split; [lia|intros; lia]|]. vm_compute. repeat split.
Qed.
Print Assumptions C128_array_refuted.
(** Values with gaps are read as if they had none. *)
Theorem C128_values_refuted : exists v, arg_ok 2 (r_items v) /\ arg_vals [] (r_items v) = [[6]; [7]] /\
  SetItemCall in_order (Some some_items) (Some some_mask) (Values v) = Done (Some [[9]; [6]; [2]; [5]; [8]]).
Proof.
  exists (mkArray 1 1 (mkArg 1 [[6]; [5]; [7]] 0 2 2)). split; [unfold arg_ok; cbn [r_items a_len a_start a_mem a_step length]; split; [lia|]; split; [lia|intros; lia]|]. vm_compute. repeat split.
Qed.
Print Assumptions C128_values_refuted.

(** ** C129.  Missing: masks and values with gaps ([C129_mask_refuted]), values that NumPy cannot convert ([C129_values_refuted]); for the conversions of single
    values see C59. *)
Theorem C129_putmask_partial : forall ord thr a m v t u g, fair ord -> ConvModel.of_num (a_dtype v) = Some t -> ConvModel.of_num (a_dtype a) = Some u ->
  a_dtype m = 0 -> a_len m = a_len a -> a_len v = a_len a -> plain a -> plain m -> plain v ->
  (forall i x, nth_error (arg_vals false m) i = Some true -> nth_error (arg_vals (ConvModel.VI 0) v) i = Some x -> ConvModel.convert_putmask t u x = Some (g x)) ->
  exists mem, PutMaskCall ord thr (Some a) (Some m) (Values v) = Done (Some mem) /\
    now_holds (ConvModel.VI 0) a (ConvSpec.replaced (ConvSpec.masked (arg_vals false m) (arg_vals (ConvModel.VI 0) v) g) (arg_vals (ConvModel.VI 0) a)) mem.
Proof. exact putmask_call. Qed.
Print Assumptions C129_putmask_partial.
(** Left to NumPy: no arrays, a mask of another type, other lengths, an array with gaps, types that are no numbers. *)
Theorem C129_left : forall ord thr arr mask v,
  match arr, mask with
  | Some a, Some m => a_dtype m <> 0 \/ a_len m <> a_len a \/ a_len v <> a_len a \/ ~ gapless a \/
      ConvModel.of_num (a_dtype v) = None \/ ConvModel.of_num (a_dtype a) = None
  | _, _ => True end ->
  PutMaskCall ord thr arr mask (Values v) = Done None.
Proof. exact putmask_left. Qed.
Print Assumptions C129_left.
(** int8 values for an array of int32. *)
Example C129_example :
  let a := mkArg 5 [ConvModel.VI 9; ConvModel.VI 1; ConvModel.VI 2; ConvModel.VI 8] 1 1 2 in
  let m := mkArg 0 [true; true] 0 1 2 in let v := mkArg 1 [ConvModel.VI 4; ConvModel.VI (-128)] 0 1 2 in
  plain a /\ plain m /\ plain v /\ ConvModel.of_num 1 = Some ConvModel.I8 /\ ConvModel.of_num 5 = Some ConvModel.I32 /\
  PutMaskCall in_order true (Some a) (Some m) (Values v) = Done (Some [ConvModel.VI 9; ConvModel.VI 4; ConvModel.VI (-2147483648); ConvModel.VI 8]).
Proof. cbv zeta. split; [plain_ex|]. split; [plain_ex|]. split; [plain_ex|]. vm_compute. repeat split. Qed.
Theorem C129_mask_refuted : exists m, arg_ok 2 m /\ a_dtype m = 0 /\ arg_vals false m = [true; false] /\
  PutMaskCall in_order true (Some (mkArg 5 [ConvModel.VI 1; ConvModel.VI 2] 0 1 2)) (Some m) (Values (mkArg 5 [ConvModel.VI 3; ConvModel.VI 4] 0 1 2)) =
    Done (Some [ConvModel.VI 3; ConvModel.VI 4]).
Proof.
  exists (mkArg 0 [true; true; false] 0 2 2). split; [unfold arg_ok; cbn [a_len a_start a_mem a_step length]; split; [lia|]; split; [lia|intros; lia]|]. vm_compute. repeat split.
Qed.
Print Assumptions C129_mask_refuted.
(** Values of which NumPy cannot make an array: a null pointer is followed. *)
Theorem C129_values_refuted : forall ord thr a m, PutMaskCall ord thr (Some a) (Some m) NoValues = Undefined.
Proof. reflexivity. Qed.
Print Assumptions C129_values_refuted.
(** With the other arguments no arrays the exception is passed on. *)
Theorem C129_values_refused : forall ord thr arr mask, arr = None \/ mask = None -> PutMaskCall ord thr arr mask NoValues = Error.
Proof. intros ord thr arr mask [-> | ->]; [|destruct arr]; reflexivity. Qed.
Print Assumptions C129_values_refused.
