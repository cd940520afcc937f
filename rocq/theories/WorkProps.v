(** C30: work space buffers. *)
From Verif Require Import Base WorkModel WorkSpec WorkProofs.
Local Open Scope Z_scope.

(** Callers that hold one buffer at a time while buffers are cached, for any number of calls: the buffers held are different, alive
    and large enough, and no buffer is lost. *)
Theorem C30_separate_partial : forall s held, reached s held -> separate s held /\ none_lost s held.
Proof. exact reached_separate. Qed.
Print Assumptions C30_separate_partial.
(** nothing is freed twice *)
Theorem C30_no_double_free_partial : forall o s held, reached s held -> allowed o s held -> exists s' held', wstep o s held = Some (s', held').
Proof. exact reached_next. Qed.
Print Assumptions C30_no_double_free_partial.
(** While caching is off (partitioned group-by, sorts by several threads) any number of buffers, in any order. *)
Theorem C30_uncached_partial : forall ops s held, reached s held -> cached s = false ->
  Forall (fun o => match o with WAlloc n _ => 0 <= n | WFree _ => True | _ => False end) ops ->
  exists s' held', wrun ops s held = Some (s', held') /\ reached s' held' /\ cached s' = false.
Proof. exact reached_run. Qed.
Print Assumptions C30_uncached_partial.
Definition trace : list wop := [WAlloc 100 true; WFree 0; WAlloc 50 true; WFree 0; WMode false; WAlloc 10 true; WAlloc 20 true; WFree 1; WFree 0; WMode true; WAlloc 200 true; WFree 0; WCollect].
Example C30_example : exists s, wrun (firstn 7 trace) ws_init [] = Some (s, [(2%nat, 20); (1%nat, 10)]) /\ reached s [(2%nat, 20); (1%nat, 10)] /\
  exists s', wrun trace ws_init [] = Some (s', []) /\ alive s' = [].
Proof.
  eexists. split; [vm_compute; reflexivity|]. split; [|eexists; split; vm_compute; reflexivity].
  apply (reached_step (WAlloc 20 true) {| fresh := 2; alive := [(1%nat, 10); (0%nat, 100)]; glob := Some 0%nat; gsize := 100; cached := false |} [(1%nat, 10)]); [|simpl; split; [lia|discriminate]|reflexivity].
  apply (reached_step (WAlloc 10 true) {| fresh := 1; alive := [(0%nat, 100)]; glob := Some 0%nat; gsize := 100; cached := false |} []); [|simpl; split; [lia|discriminate]|reflexivity].
  apply (reached_step (WMode false) {| fresh := 1; alive := [(0%nat, 100)]; glob := Some 0%nat; gsize := 100; cached := true |} []); [|simpl; auto|reflexivity].
  apply (reached_step (WFree 0) {| fresh := 1; alive := [(0%nat, 100)]; glob := None; gsize := 0; cached := true |} [(0%nat, 100)]); [|simpl; auto|reflexivity].
  apply (reached_step (WAlloc 100 true) ws_init []); [constructor|simpl; split; [lia|auto]|reflexivity].
Qed.
(** Two buffers held while buffers are cached are the same buffer. *)
Theorem C30_shared_refuted : exists s a p b c, wrun [WAlloc 100 true; WFree 0; WAlloc a true; WAlloc b true] ws_init [] = Some (s, [(p, b); (c, a)]) /\ p = c.
Proof. eexists _, 10, _, 20, _. split; [vm_compute; reflexivity|reflexivity]. Qed.
Print Assumptions C30_shared_refuted.
(** A larger buffer asked for while the kept one is held frees the one held. *)
Theorem C30_freed_refuted : exists s held p size, wrun [WAlloc 100 true; WFree 0; WAlloc 10 true; WAlloc 200 true] ws_init [] = Some (s, held) /\ In (p, size) held /\ forall n, ~ In (p, n) (alive s).
Proof. eexists _, _, 0%nat, 10. split; [vm_compute; reflexivity|]. simpl. split; [auto|]. intros n [H|[]]. discriminate. Qed.
Print Assumptions C30_freed_refuted.
(** RecycleGarbageCollectNow with threading switched off frees the kept buffer but still keeps it: the next collection frees it again,
    and the next call after threading is switched on receives a freed buffer. *)
Theorem C30_collect_refuted : wrun [WAlloc 100 true; WFree 0; WMode false; WCollect; WCollect] ws_init [] = None /\
  exists s p size, wrun [WAlloc 100 true; WFree 0; WMode false; WCollect; WMode true; WAlloc 50 true] ws_init [] = Some (s, [(p, size)]) /\ alive s = [].
Proof. split; [vm_compute; reflexivity|]. eexists _, _, _. split; vm_compute; reflexivity. Qed.
Print Assumptions C30_collect_refuted.
(** A buffer returned while another one is kept: the larger of the two is kept and the other one freed. *)
Theorem C30_larger_kept : forall p size g s, cached s = true -> glob s = Some g -> p <> g -> In (p, size) (alive s) -> In (g, gsize s) (alive s) ->
  exists s' k, WorkSpaceFreeAlloc p size s = Some s' /\ glob s' = Some k /\ gsize s' = Z.max size (gsize s) /\ In (k, gsize s') (alive s') /\
    (forall q n, In (q, n) (alive s') <-> In (q, n) (alive s) /\ (q <> p /\ q <> g \/ q = k)).
Proof. exact free_keeps. Qed.
Print Assumptions C30_larger_kept.
Example C30_larger_example : exists s s', wrun [WAlloc 100 true; WAlloc 50 true; WFree 0] ws_init [] = Some (s, [(0%nat, 100)]) /\ glob s = Some 1%nat /\ In (0%nat, 100) (alive s) /\ In (1%nat, gsize s) (alive s) /\
  WorkSpaceFreeAlloc 0 100 s = Some s' /\ alive s' = [(0%nat, 100)].
Proof. eexists _, _. split; [vm_compute; reflexivity|]. simpl. tauto. Qed.
