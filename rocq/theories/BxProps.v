(** Properties C132 and C133: BooleanSum, BooleanToFancy and BooleanIndex from their arguments to their results. *)
From Verif Require Import Base Mem AllModel EaModel EaSpec.
From Verif Require Import BxModel BxSpec BxProofs.
Local Open Scope Z_scope.

(** ** C132.  Missing: BooleanToFancy of masks with gaps ([C132_gaps_refuted]). *)
Theorem C132_sum : forall ord thr chunk junk m, fair ord -> (0 < chunk)%nat -> is_mask m -> (thr = true -> 0 < a_len m) ->
  BooleanSumCall ord thr chunk junk (PArray m) = Done (Z.of_nat (length (set_rows (arg_vals 0 m)))).
Proof. exact sum_call. Qed.
Print Assumptions C132_sum.
Theorem C132_fancy_partial : forall ord1 ord2 thr chunk both j1 j2 m, fair ord1 -> fair ord2 -> (0 < chunk)%nat -> is_mask m -> gapless m -> (thr = true -> 0 < a_len m) -> a_len m <= 2 ^ 63 ->
  BooleanToFancyCall ord1 ord2 thr chunk both j1 j2 (PArray m) =
    Done (if a_len m <? 2000000000 then 5 else 7, map Z.of_nat (set_rows (arg_vals 0 m) ++ if both then unset_rows (arg_vals 0 m) else []),
          if both then Some (Z.of_nat (length (set_rows (arg_vals 0 m)))) else None).
Proof. exact fancy_call. Qed.
Print Assumptions C132_fancy_partial.
Theorem C132_refused : forall ord1 ord2 thr chunk both j1 j2 m, match m with PArray m => a_dtype m <> 0 | _ => True end ->
  BooleanSumCall ord1 thr chunk j1 m = Error /\ BooleanToFancyCall ord1 ord2 thr chunk both j1 j2 m = Error.
Proof. exact mask_refused. Qed.
Print Assumptions C132_refused.
Definition some_mask : arg Z := mkArg 0 [9; 1; 0; 0; 255; 1] 1 1 5.
Ltac mask_ex := unfold is_mask, arg_ok; cbn [a_dtype a_len a_start a_mem a_step length]; split; [reflexivity|]; split; [lia|]; split; [split; [lia|]; split; [lia|intros; lia]|];
  repeat (constructor; [lia|]); constructor.
Example C132_example : is_mask some_mask /\ gapless some_mask /\ BooleanSumCall in_order true 2 7 (PArray some_mask) = Done 3 /\
  BooleanToFancyCall in_order in_order true 2 true 7 8 (PArray some_mask) = Done (5, [0; 3; 4; 1; 2], Some 3) /\
  BooleanToFancyCall in_order in_order true 2 false 7 8 (PArray some_mask) = Done (5, [0; 3; 4], None).
Proof. split; [unfold some_mask; mask_ex|]. split; [left; reflexivity|]. vm_compute. repeat split. Qed.
(** A mask of two rows with a gap between them, both set: row 1 is not found. *)
Theorem C132_gaps_refuted : exists m, is_mask m /\ arg_vals 0 m = [1; 1] /\ set_rows (arg_vals 0 m) = [0; 1]%nat /\
  BooleanToFancyCall in_order in_order false 2 false 7 8 (PArray m) = Done (5, [0; 8], None).
Proof. exists (mkArg 0 [1; 0; 1] 0 2 2). split; [mask_ex|]. vm_compute. repeat split. Qed.
Print Assumptions C132_gaps_refuted.

(** ** C133.  Missing: values with gaps whose item size is not 1, 2, 4 or 8, under a mask without gaps ([C133_gaps_refuted]). *)
Theorem C133_index_partial : forall ord1 ord2 thr chunk junk j2 size v m, fair ord1 -> fair ord2 -> (0 < chunk)%nat -> 0 < size -> is_mask m -> 0 <= a_len v -> arg_ok (a_len v) v -> a_len m = a_len v ->
  (thr = true -> 0 < a_len m) -> In size [1; 2; 4; 8] \/ gapless v \/ ~ gapless m ->
  BooleanIndexCall ord1 ord2 thr chunk junk j2 size (PArray v) (PArray m) = Done (a_dtype v, map (fun i => nth i (arg_vals [] v) []) (set_rows (arg_vals 0 m))).
Proof. exact index_call. Qed.
Print Assumptions C133_index_partial.
Theorem C133_refused : forall ord1 ord2 thr chunk j1 j2 size v m, match v, m with PArray v, PArray m => a_dtype m <> 0 \/ a_len m <> a_len v | _, _ => True end ->
  BooleanIndexCall ord1 ord2 thr chunk j1 j2 size v m = Error.
Proof. exact index_refused. Qed.
Print Assumptions C133_refused.
(** Every other element of one byte, backwards, under a mask with gaps. *)
Example C133_example : let v := mkArg 1 [[1]; [2]; [3]; [4]; [5]] 4 (-2) 3 in let m := mkArg 0 [1; 0; 0; 0; 1] 0 2 3 in
  arg_ok 3 v /\ is_mask m /\ arg_vals [] v = [[5]; [3]; [1]] /\ BooleanIndexCall in_order in_order true 2 7 [8] 1 (PArray v) (PArray m) = Done (1, [[5]; [1]]).
Proof.
  cbv zeta. split; [unfold arg_ok; cbn [a_len a_start a_mem a_step length]; split; [lia|]; split; [lia|intros; lia]|]. split; [mask_ex|]. vm_compute. repeat split.
Qed.
(** Items of three bytes with gaps: the second one is written behind the result. *)
Theorem C133_gaps_refuted : exists v m, arg_ok 2 v /\ is_mask m /\ gapless m /\ BooleanIndexCall in_order in_order false 2 7 [] 3 (PArray v) (PArray m) = Undefined.
Proof.
  exists (mkArg 18 [[1; 2; 3]; [4; 5; 6]; [7; 8; 9]] 0 2 2), (mkArg 0 [1; 1] 0 1 2).
  split; [unfold arg_ok; cbn [a_len a_start a_mem a_step length]; split; [lia|]; split; [lia|intros; lia]|]. split; [mask_ex|]. split; [left; reflexivity|]. vm_compute. reflexivity.
Qed.
Print Assumptions C133_gaps_refuted.
