(** Property C136: InterpExtrap2d from its arguments to its result. *)
From Verif Require Import Base Mem AllModel EaModel EaSpec.
From Verif Require Import MwSpec IqModel IqSpec IqProofs.
From Verif Require InterpSpec.
From Coq Require Import QArith Qcanon.
Local Open Scope Z_scope.

(** ** C136.  Missing: values with gaps ([C136_gaps_refuted]), values above the last point of the last row ([C136_beyond_refuted]), rounding. *)
Theorem C136_interp_partial : forall ord thr two d a p q m clip, fair ord -> - 2 ^ 31 <= clip < 2 ^ 31 -> In d [11; 12] -> 2 <= m -> row_of d a ->
  points_of d two (a_len (v_items a)) m p -> points_of d two (a_len (v_items a)) m q ->
  let xs := arg_vals None (v_items a) in let ps := arg_vals 0%Qc (g_items p) in let qs := arg_vals 0%Qc (g_items q) in let M := Z.to_nat m in
  (forall i, (i < length xs)%nat -> InterpSpec.increasing (InterpSpec.points ps qs (InterpSpec.row_start two M i) M)) ->
  (forall i x, nth_error xs i = Some (Some x) -> (two = true /\ S i < length xs)%nat \/ InterpSpec.reached (InterpSpec.points ps qs (InterpSpec.row_start two M i) M) x) ->
  exists out, InterpCall ord thr (Some a) (Some p) (Some q) clip = Done (d, out) /\ length out = length xs /\
    forall i v, nth_error xs i = Some v -> match v with
      | None => nth_error out i = Some None
      | Some x => exists y, nth_error out i = Some (Some y) /\ InterpSpec.interpolates (negb (clip =? 0)) (InterpSpec.points ps qs (InterpSpec.row_start two M i) M) x y
      end.
Proof. exact interp_call. Qed.
Print Assumptions C136_interp_partial.
Theorem C136_refused : forall ord thr a p q clip,
  match a, p, q with Some a, Some p, Some q => ~ (- 2 ^ 31 <= clip < 2 ^ 31) \/ 1 < v_dims a \/ v_dims a = 1 /\ bad_points a p q | _, _, _ => True end ->
  InterpCall ord thr a p q clip = Error.
Proof. exact interp_refused. Qed.
Print Assumptions C136_refused.
Theorem C136_types_refused : forall ord thr a p q clip, v_dims a = 1 -> g_shape p <> [] -> bad_types a p q -> InterpCall ord thr (Some a) (Some p) (Some q) clip = Error.
Proof. exact interp_types. Qed.
Print Assumptions C136_types_refused.
Definition q (z : Z) : Qc := Q2Qc (inject_Z z).
Definition xs : values := mkValues 1 (mkArg 12 [None; Some (q 1); None; Some (q (-1))] 1 1 3).
Definition px : grid := mkGrid [2] true (mkArg 12 [q 0; q 2] 0 1 2).
Definition py : grid := mkGrid [2] true (mkArg 12 [q 0; q 4] 0 1 2).
Ltac plain_ex := unfold plain, arg_ok, gapless; cbn [a_len a_start a_mem a_step length]; split; [lia|]; split; [split; [lia|]; split; [lia|intros; lia]|left; reflexivity].
Ltac eq_out := vm_compute; repeat (f_equal; try apply Qc_is_canon; try reflexivity).
Example C136_example : row_of 12 xs /\ points_of 12 false 3 2 px /\ points_of 12 false 3 2 py /\
  InterpSpec.increasing (InterpSpec.points (arg_vals 0%Qc (g_items px)) (arg_vals 0%Qc (g_items py)) 0 2) /\
  InterpSpec.reached (InterpSpec.points (arg_vals 0%Qc (g_items px)) (arg_vals 0%Qc (g_items py)) 0 2) (q 1).
Proof.
  split; [split; [reflexivity|]; split; [reflexivity|]; cbn [v_items xs]; plain_ex|].
  split; [split; [reflexivity|]; split; [reflexivity|]; split; [reflexivity|]; split; [cbn [g_items px]; plain_ex|reflexivity]|].
  split; [split; [reflexivity|]; split; [reflexivity|]; split; [reflexivity|]; split; [cbn [g_items py]; plain_ex|reflexivity]|].
  change (InterpSpec.points (arg_vals 0%Qc (g_items px)) (arg_vals 0%Qc (g_items py)) 0 2) with [(q 0, q 0); (q 2, q 4)]. split.
  - intros i j a b Hij Ha Hb. destruct i as [|[|i]], j as [|[|j]]; try lia; cbn in Ha, Hb; try discriminate; try (destruct i; discriminate); try (destruct j; discriminate). injection Ha as <-. injection Hb as <-. reflexivity.
  - exists (q 2, q 4). split; [reflexivity|]. discriminate.
Qed.
Example C136_result : InterpCall in_order true (Some xs) (Some px) (Some py) 0 = Done (12, [Some (q 2); None; Some (q (-2))]) /\
  InterpCall in_order true (Some xs) (Some px) (Some py) 1 = Done (12, [Some (q 2); None; Some (q 0)]).
Proof. split; eq_out. Qed.
(** Values with gaps are read as if they had none: -1, 1 becomes what -1, NaN would. *)
Theorem C136_gaps_refuted : exists a, arg_ok 2 a /\ a_dtype a = 12 /\ arg_vals None a = [Some (q (-1)); Some (q 1)] /\
  InterpCall in_order true (Some (mkValues 1 a)) (Some px) (Some py) 1 = Done (12, [Some (q 0); None]).
Proof.
  exists (mkArg 12 [Some (q (-1)); None; Some (q 1)] 0 2 2). split; [unfold arg_ok; cbn [a_len a_start a_mem a_step length]; split; [lia|]; split; [lia|intros; lia]|]. split; [reflexivity|]. split; [reflexivity|eq_out].
Qed.
Print Assumptions C136_gaps_refuted.
(** A value above the last point: memory behind the points is read, also when clipping. *)
Theorem C136_beyond_refuted : exists a, row_of 12 a /\ arg_vals None (v_items a) = [Some (q 3)] /\ InterpCall in_order true (Some a) (Some px) (Some py) 1 = Undefined.
Proof. exists (mkValues 1 (mkArg 12 [Some (q 3)] 0 1 1)). split; [split; [reflexivity|]; split; [reflexivity|]; cbn [v_items]; plain_ex|]. split; [reflexivity|]. vm_compute. reflexivity. Qed.
Print Assumptions C136_beyond_refuted.
