(** Property C134: IsMemberCategoricalFixup from its arguments to its results. *)
From Verif Require Import Base Mem AllModel EaModel EaSpec.
From Verif Require Import MwSpec FxModel FxSpec FxProofs.
From Verif Require HashSpec.
Local Open Scope Z_scope.

(** ** C134.  Missing: arrays with gaps ([C134_gaps_refuted]), category numbers that are too large ([C134_range_refuted]), negative base offsets. *)
Theorem C134_fixup_partial : forall a b u len2 base1 base2, 0 <= len2 < 2 ^ 31 -> 0 <= base1 < 2 ^ 31 -> 0 <= base2 < 2 ^ 31 ->
  categories (base1 + a_len u) a -> categories (base2 + len2) b -> matches len2 u -> a_len b < 2 ^ 31 - 1 ->
  exists res, FixupCall (PArray a) (PArray b) (PArray u) len2 base1 base2 = Done res /\
    Forall2 (HashSpec.fixup_row (- 2 ^ 31) base1 base2 (arg_vals 0 b) (arg_vals 0 u)) (arg_vals 0 a) res.
Proof. exact fixup_call. Qed.
Print Assumptions C134_fixup_partial.
Theorem C134_refused : forall a b u len2 base1 base2,
  match a, b, u with
  | PArray a, PArray b, PArray u => ~ (- 2 ^ 31 <= len2 < 2 ^ 31 /\ - 2 ^ 31 <= base1 < 2 ^ 31 /\ - 2 ^ 31 <= base2 < 2 ^ 31) \/ a_dtype u <> 5 \/ 2 ^ 31 <= a_len u \/
      ~ In (a_dtype b) [1; 3; 5; 7; 9]
  | _, _, _ => True end -> FixupCall a b u len2 base1 base2 = Error.
Proof. exact fixup_refused. Qed.
Print Assumptions C134_refused.
Theorem C134_match_refused : forall a b u len2 base1 base2 x, plain u -> plain b -> 0 <= len2 -> 0 <= base1 -> 0 <= base2 -> In x (arg_vals 0 u) -> x <> - 2 ^ 31 -> ~ 0 <= x < len2 ->
  FixupCall (PArray a) (PArray b) (PArray u) len2 base1 base2 = Error.
Proof. exact fixup_match. Qed.
Print Assumptions C134_match_refused.
Theorem C134_first_refused : forall a b u len2 base1 base2 res, ~ In (a_dtype a) [1; 3; 5; 7; 9] -> FixupCall (PArray a) b u len2 base1 base2 <> Done res.
Proof. exact fixup_first. Qed.
Print Assumptions C134_first_refused.
(** Three categories, the second of which is none of the other array. *)
Definition bins1 : arg Z := mkArg 1 [1; 0; 2; 3; 1] 0 1 5.
Definition bins2 : arg Z := mkArg 3 [9; 2; 3; 2; 0] 1 1 4.
Definition both : arg Z := mkArg 5 [2; - 2 ^ 31; 1] 0 1 3.
Ltac plain_ex := unfold plain, arg_ok, gapless; cbn [a_len a_start a_mem a_step length]; split; [lia|]; split; [split; [lia|]; split; [lia|intros; lia]|left; reflexivity].
Example C134_example :
  categories (1 + a_len both) bins1 /\ categories (1 + 3) bins2 /\ matches 3 both /\
  FixupCall (PArray bins1) (PArray bins2) (PArray both) 3 1 1 = Done [(true, 1); (false, - 2 ^ 31); (false, - 2 ^ 31); (true, 0); (true, 1)] /\
  FixupCall (PArray bins1) (PArray bins2) (PArray both) 2 1 1 = Error.
Proof.
  unfold bins1, bins2, both. split; [split; [cbn; auto|]; split; [plain_ex|intros v Hv; vm_compute in Hv; cbn [a_len]; lia]|].
  split; [split; [cbn; auto|]; split; [plain_ex|intros v Hv; vm_compute in Hv; lia]|]. split; [|vm_compute; split; reflexivity].
  split; [reflexivity|]. split; [plain_ex|]. split; [vm_compute; reflexivity|]. split; [intros x Hx; vm_compute in Hx; lia|].
  intros i j x. change (arg_vals 0 _) with [2; - 2 ^ 31; 1]. destruct i as [|[|[|i]]]; destruct j as [|[|[|j]]]; cbn [nth_error]; intros H1 H2 N; try reflexivity; try congruence;
    try (destruct i; discriminate H1); try (destruct j; discriminate H2).
Qed.
(** A category number that is too large: memory behind the table is read. *)
Theorem C134_range_refuted : exists a, plain a /\ a_dtype a = 1 /\ arg_vals 0 a = [4] /\ FixupCall (PArray a) (PArray bins2) (PArray both) 3 1 1 = Undefined.
Proof. exists (mkArg 1 [4] 0 1 1). split; [plain_ex|]. vm_compute. repeat split. Qed.
Print Assumptions C134_range_refuted.
(** An array with gaps is read as if it had none: 1, 3 becomes what 1, 0 would. *)
Theorem C134_gaps_refuted : exists a, arg_ok 2 a /\ arg_vals 0 a = [1; 3] /\ FixupCall (PArray a) (PArray bins2) (PArray both) 3 1 1 = Done [(true, 1); (false, - 2 ^ 31)] /\
  FixupCall (PArray (mkArg 1 [1; 3] 0 1 2)) (PArray bins2) (PArray both) 3 1 1 = Done [(true, 1); (true, 0)].
Proof.
  exists (mkArg 1 [1; 0; 3] 0 2 2). split; [unfold arg_ok; cbn [a_len a_start a_mem a_step length]; split; [lia|]; split; [lia|intros; lia]|]. vm_compute. repeat split.
Qed.
Print Assumptions C134_gaps_refuted.
