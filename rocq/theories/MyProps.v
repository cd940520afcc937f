(** Property C137: MergeBinnedAndSorted from its arguments to its result. *)
From Verif Require Import Base Mem AllModel EaModel EaSpec.
From Verif Require Import MwSpec MyModel MySpec MyProofs.
From Verif Require HashSpec RvModel.
Local Open Scope Z_scope.

(** ** C137.  Missing: second tables with several keys or fewer rows than the first ([C137_keys_refuted], [C137_read_refuted]), floats
    ([C137_floats_refuted]), keys of another type than the values ([C137_types_refuted]), arrays with gaps. *)
Theorem C137_merge_partial : forall w k1 k2 v1 v2 uniques k0, 0 <= uniques < 2 ^ (w - 1) -> table w uniques k1 v1 -> table w uniques k2 v2 -> a_len k1 <= a_len k2 ->
  (forall x, In x (arg_vals 0 k2) -> x = k0) -> 0 <= k0 < uniques ->
  exists r, MergeCall (PArray k1) (PArray k2) (Some v1) (Some v2) uniques = Done (a_dtype (RvModel.s_arg v1), r) /\
    HashSpec.asof_spec Z.lt (fun _ => True) true (arg_vals 0 k1) (arg_vals 0 k2) (arg_vals 0 (RvModel.s_arg v1)) (arg_vals 0 (RvModel.s_arg v2)) false (- 2 ^ (w - 1)) r.
Proof. exact merge_call. Qed.
Print Assumptions C137_merge_partial.
Theorem C137_refused : forall k1 k2 v1 v2 uniques,
  match k1, k2, v1, v2 with
  | PArray _, PArray _, Some v1, Some v2 =>
      let d1 := a_dtype (RvModel.s_arg v1) in let d2 := a_dtype (RvModel.s_arg v2) in
      ~ - 2 ^ 63 <= uniques < 2 ^ 63 \/ ~ In d1 [5; 7; 9] \/ d1 <> d2 /\ (RvModel.s_bytes v1 <> RvModel.s_bytes v2 \/ 0 <= d2 <= 20 /\ (Z.even d2 = true \/ 10 < d2))
  | _, _, _, _ => True end -> MergeCall k1 k2 v1 v2 uniques = Error.
Proof. exact merge_refused. Qed.
Print Assumptions C137_refused.
Definition ka : arg Z := mkArg 7 [9; 0; 1; 1] 1 1 3.
Definition kb : arg Z := mkArg 9 [1; 1; 1] 0 1 3.
Definition va : RvModel.sized := RvModel.mkSized 8 (mkArg 7 [2; 3; 8] 0 1 3).
Definition vb : RvModel.sized := RvModel.mkSized 8 (mkArg 9 [1; 3; 9] 0 1 3).
Ltac plain_ex := unfold plain, arg_ok, gapless; cbn [a_len a_start a_mem a_step length]; split; [lia|]; split; [split; [lia|]; split; [lia|intros; lia]|left; reflexivity].
Ltac sorted_ex := intros i j x y L Ei Ej _ _; destruct i as [|[|[|i]]], j as [|[|[|j]]]; cbn in Ei, Ej; try discriminate; try lia; try (destruct i; discriminate); try (destruct j; discriminate);
  injection Ei as <-; injection Ej as <-; lia.
Example C137_example : table 64 2 ka va /\ table 64 2 kb vb /\ MergeCall (PArray ka) (PArray kb) (Some va) (Some vb) 2 = Done (7, [- 2 ^ 63; 1; 1]).
Proof.
  split; [|split; [|vm_compute; reflexivity]].
  - split; [right; auto|]. split; [unfold ka; plain_ex|]. split; [reflexivity|]. split; [intros x Hx; vm_compute in Hx; lia|]. split; [right; cbn; auto|]. split; [cbn [RvModel.s_arg va]; plain_ex|].
    split; [reflexivity|]. split; [reflexivity|]. change (arg_vals 0 (RvModel.s_arg va)) with [2; 3; 8]. sorted_ex.
  - split; [right; auto|]. split; [unfold kb; plain_ex|]. split; [reflexivity|]. split; [intros x Hx; vm_compute in Hx; lia|]. split; [right; cbn; auto|]. split; [cbn [RvModel.s_arg vb]; plain_ex|].
    split; [reflexivity|]. split; [reflexivity|]. change (arg_vals 0 (RvModel.s_arg vb)) with [1; 3; 9]. sorted_ex.
Qed.
(** float64 values, which the message of the error says are accepted. *)
Theorem C137_floats_refuted : forall k1 k2 v1 v2 uniques, In (a_dtype (RvModel.s_arg v1)) [11; 12] -> MergeCall (PArray k1) (PArray k2) (Some v1) (Some v2) uniques = Error.
Proof. intros k1 k2 v1 v2 uniques H. apply C137_refused. cbv zeta. right. left. cbn [In] in *. lia. Qed.
Print Assumptions C137_floats_refuted.
(** Two rows of keys 0 and 1; the second, of key 1, is matched with the second of the other table, which has key 0. *)
Theorem C137_keys_refuted : MergeCall (PArray (mkArg 5 [0; 1] 0 1 2)) (PArray (mkArg 5 [1; 0] 0 1 2)) (Some (RvModel.mkSized 4 (mkArg 5 [2; 3] 0 1 2))) (Some (RvModel.mkSized 4 (mkArg 5 [1; 2] 0 1 2))) 2
  = Done (5, [- 2 ^ 31; 1]).
Proof. vm_compute. reflexivity. Qed.
Print Assumptions C137_keys_refuted.
(** A second table of fewer rows: memory behind its keys is read. *)
Theorem C137_read_refuted : exists k1 k2 v1 v2, table 32 1 k1 v1 /\ table 32 1 k2 v2 /\ MergeCall (PArray k1) (PArray k2) (Some v1) (Some v2) 1 = Undefined.
Proof.
  exists (mkArg 5 [0; 0] 0 1 2), (mkArg 5 [0] 0 1 1), (RvModel.mkSized 4 (mkArg 5 [1; 3] 0 1 2)), (RvModel.mkSized 4 (mkArg 5 [2] 0 1 1)).
  split; [|split; [|vm_compute; reflexivity]];
  (split; [left; auto|]; split; [plain_ex|]; split; [reflexivity|]; split; [intros x Hx; vm_compute in Hx; lia|]; split; [left; cbn; auto|]; split; [cbn [RvModel.s_arg]; plain_ex|];
    split; [reflexivity|]; split; [reflexivity|]; match goal with |- HashSpec.time_sorted _ _ ?l => let l' := eval vm_compute in l in change l with l' end; sorted_ex).
Qed.
Print Assumptions C137_read_refuted.
(** int32 keys with int64 values are not refused but misread. *)
Theorem C137_types_refuted : exists k1 k2 v1 v2, a_dtype k1 = 5 /\ plain k1 /\ plain k2 /\ a_dtype (RvModel.s_arg v1) = 7 /\ MergeCall (PArray k1) (PArray k2) (Some v1) (Some v2) 1 = Undefined.
Proof.
  exists (mkArg 5 [0] 0 1 1), (mkArg 5 [0] 0 1 1), (RvModel.mkSized 8 (mkArg 7 [1] 0 1 1)), (RvModel.mkSized 8 (mkArg 7 [1] 0 1 1)).
  split; [reflexivity|]. split; [plain_ex|]. split; [plain_ex|]. split; reflexivity.
Qed.
Print Assumptions C137_types_refuted.
(** A second array of datetimes (type 21) is taken for one of integers. *)
Theorem C137_datetime_refuted : MergeCall (PArray ka) (PArray kb) (Some va) (Some (RvModel.mkSized 8 (mkArg 21 [1; 3; 9] 0 1 3))) 2 = Done (7, [- 2 ^ 63; 1; 1]).
Proof. vm_compute. reflexivity. Qed.
Print Assumptions C137_datetime_refuted.
