(** Property C71: interpolation. *)
From Verif Require Import Base Mem MemLemmas Par InterpModel InterpSpec InterpProofs.
Local Open Scope Qc_scope.

(** C71, guarded: rows of strictly increasing points; no value above the last point of the last row of the array *)
Theorem C71_interpolation_partial (ord : sched) (thr two clip : bool) (M : nat) (x : list (option Qc)) (xp yp : list Qc) : fair ord -> (2 <= M)%nat ->
  length xp = (if two then length x * M else M)%nat -> length yp = (if two then length x * M else M)%nat ->
  (forall i, (i < length x)%nat -> increasing (points xp yp (row_start two M i) M)) ->
  (forall i xi, nth_error x i = Some (Some xi) -> (two = true /\ S i < length x)%nat \/ reached (points xp yp (row_start two M i) M) xi) ->
  exists out, InterpExtrap2d ord thr two clip M x xp yp = IOk out /\ length out = length x /\
    forall i v, nth_error x i = Some v -> match v with
      | None => nth_error out i = Some None
      | Some xi => exists d, nth_error out i = Some (Some d) /\ interpolates clip (points xp yp (row_start two M i) M) xi d
      end.
Proof. exact (InterpExtrap2d_ok ord thr two clip M x xp yp). Qed.
Print Assumptions C71_interpolation_partial.

Definition q (z : Z) : Qc := Q2Qc (inject_Z z).
Example ex_interp : InterpExtrap2d in_order true false false 3 [Some (q (-1)); None; Some (q 1); Some (q 5)] [q 0; q 2; q 6] [q 0; q 4; q 0] = IOk [Some (q (-2)); None; Some (q 2); Some (q 1)].
Proof. vm_compute. repeat (f_equal; try apply Qc_is_canon; try reflexivity). Qed.
(* two rows; the value of the first is above its last point *)
Example ex_interp_rows : InterpExtrap2d in_order true true true 2 [Some (q 9); Some (q 1)] [q 0; q 2; q 0; q 2] [q 0; q 4; q 1; q 3] = IOk [Some (q 4); Some (q 2)].
Proof. vm_compute. repeat (f_equal; try apply Qc_is_canon; try reflexivity). Qed.
Example ex_interp_guard : increasing (points [q 0; q 2; q 6] [q 0; q 4; q 0] 0 3) /\ reached (points [q 0; q 2; q 6] [q 0; q 4; q 0] 0 3) (q 5).
Proof.
  split.
  - intros i j p r Hij Ep Er. destruct i as [| [| [| i]]], j as [| [| [| j]]]; try lia; cbn in Ep, Er; try discriminate; try (destruct i; discriminate); try (destruct j; discriminate); injection Ep as <-; injection Er as <-; reflexivity.
  - exists (q 6, q 0). split; auto. discriminate.
Qed.

(** a value above the last point of the last row: the item after the last of [xp] is read, with or without clipping, wherever the value is in the array *)
Theorem C71_beyond_undefined (ord : sched) (thr two clip : bool) (M i : nat) (x : list (option Qc)) (xp yp : list Qc) xi : (2 <= M)%nat ->
  length xp = (if two then length x * M else M)%nat -> length yp = (if two then length x * M else M)%nat ->
  nth_error x i = Some (Some xi) -> (two = true -> S i = length x) ->
  (forall p, In p (points xp yp (row_start two M i) M) -> fst p < xi) ->
  InterpExtrap2d ord thr two clip M x xp yp = IUndef.
Proof. exact (beyond_undefined ord thr two clip M i x xp yp xi). Qed.
Print Assumptions C71_beyond_undefined.
Theorem C71_refuted : exists M x xp yp, (2 <= M)%nat /\ length xp = M /\ length yp = M /\ increasing (points xp yp 0 M) /\
  InterpExtrap2d in_order true false true M x xp yp = IUndef.
Proof.
  exists 3%nat, [Some (q 7)], [q 0; q 2; q 6], [q 0; q 4; q 0]. repeat (split; [solve [auto | exact (proj1 ex_interp_guard)] |]). vm_compute. reflexivity.
Qed.
Print Assumptions C71_refuted.
