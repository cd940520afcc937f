(** Property C135: MBGet from its arguments to its result. *)
From Verif Require Import Base Mem AllModel EaModel EaSpec.
From Verif Require Import BxSpec GxModel GxSpec GxProofs.
Local Open Scope Z_scope.

(** ** C135.  Missing: unsigned indexes of which the upper half is used ([C135_unsigned_refuted]), unsigned indexes into items of other sizes
    ([C135_strings_refuted]), values with gaps when there are threads ([C135_gaps_refuted]). *)
Theorem C135_get_partial : forall ord1 ord2 thr chunk junk j2 size inv given v i, fair ord1 -> (0 < chunk)%nat -> 0 < size -> 0 <= a_len v -> arg_ok (a_len v) v -> is_index i ->
  (unsigned_bits (a_dtype i) <> [] -> In size [1; 2; 4; 8; 16]) -> (thr = true -> gapless v) ->
  exists res, MBGetCall ord1 ord2 thr chunk junk j2 size inv given (PArray v) (PArray i) = Done (a_dtype v, res) /\
    Forall2 (element (arg_vals [] v) (match given with Some (Some b) => b | _ => inv end)) (arg_vals 0 i) res.
Proof. exact get_call. Qed.
Print Assumptions C135_get_partial.
Theorem C135_mask_partial : forall ord1 ord2 thr chunk junk j2 size inv given v m, fair ord1 -> fair ord2 -> (0 < chunk)%nat -> 0 < size -> is_mask m -> 0 <= a_len v -> arg_ok (a_len v) v ->
  a_len m = a_len v -> (thr = true -> 0 < a_len m) -> In size [1; 2; 4; 8] \/ gapless v \/ ~ gapless m ->
  MBGetCall ord1 ord2 thr chunk junk j2 size inv given (PArray v) (PArray m) = Done (a_dtype v, map (fun i => nth i (arg_vals [] v) []) (set_rows (arg_vals 0 m))).
Proof. exact get_masked. Qed.
Print Assumptions C135_mask_partial.
Theorem C135_refused : forall ord1 ord2 thr chunk junk j2 size inv given v i,
  match v, i with PArray v, PArray i => 13 < a_dtype i \/ In (a_dtype i) [11; 12; 13] /\ a_len i <> 0 \/ a_dtype i = 0 /\ a_len i <> a_len v | _, _ => True end ->
  MBGetCall ord1 ord2 thr chunk junk j2 size inv given v i = Error.
Proof. exact get_refused. Qed.
Print Assumptions C135_refused.
Theorem C135_empty : forall ord1 ord2 thr chunk junk j2 size inv given v i, a_dtype i <> 0 -> a_dtype i <= 13 -> a_len i = 0 ->
  MBGetCall ord1 ord2 thr chunk junk j2 size inv given (PArray v) (PArray i) = Done (a_dtype v, []).
Proof. exact get_empty. Qed.
Print Assumptions C135_empty.
Ltac arg_ex := unfold arg_ok; cbn [a_len a_start a_mem a_step length]; split; [lia|]; split; [lia|intros; lia].
(** Items of two bytes, the values backwards with gaps, an index with gaps. *)
Example C135_example : let v := mkArg 3 [[1; 1]; [2; 2]; [3; 3]; [4; 4]; [5; 5]] 4 (-2) 3 in let i := mkArg 1 [0; 9; -1; 9; 3; 9; -4; 9; 2] 0 2 5 in
  arg_ok 3 v /\ is_index i /\ arg_vals [] v = [[5; 5]; [3; 3]; [1; 1]] /\
  MBGetCall in_order in_order false 2 7 [8] 2 [0; 128] (Some (Some [6; 6])) (PArray v) (PArray i) = Done (3, [[5; 5]; [1; 1]; [6; 6]; [6; 6]; [1; 1]]) /\
  MBGetCall in_order in_order false 2 7 [8] 2 [0; 128] (Some None) (PArray v) (PArray i) = Done (3, [[5; 5]; [1; 1]; [0; 128]; [0; 128]; [1; 1]]).
Proof.
  cbv zeta. split; [arg_ex|]. split; [|vm_compute; repeat split]. split; [cbn; lia|]. split; [arg_ex|]. left. exists 8. split; [cbn; auto|].
  intros x Hx. vm_compute in Hx. change (2 ^ (8 - 1)) with 128. lia.
Qed.
(** A uint8 index of 128 into 129 values gives the default. *)
Theorem C135_unsigned_refuted : exists v i, arg_ok 129 v /\ a_len v = 129 /\ arg_ok 1 i /\ a_dtype i = 2 /\ arg_vals 0 i = [128] /\ nth_error (arg_vals [] v) 128 = Some [1] /\
  MBGetCall in_order in_order false 2 7 [] 1 [0] None (PArray v) (PArray i) = Done (1, [[0]]).
Proof. exists (mkArg 1 (repeat [1] 129) 0 1 129), (mkArg 2 [128] 0 1 1). split; [unfold arg_ok; cbn [a_len a_start a_mem a_step]; rewrite repeat_length; split; [lia|]; split; [lia|intros; lia]|]. split; [reflexivity|]. split; [arg_ex|]. vm_compute. repeat split. Qed.
Print Assumptions C135_unsigned_refuted.
(** A uint32 index into items of three bytes: the end is never met. *)
Theorem C135_strings_refuted : exists v i, arg_ok 1 v /\ gapless v /\ is_index i /\ arg_vals 0 i = [0] /\ MBGetCall in_order in_order false 2 7 [] 3 [0; 0; 0] None (PArray v) (PArray i) = Undefined.
Proof.
  exists (mkArg 18 [[1; 2; 3]] 0 1 1), (mkArg 6 [0] 0 1 1). split; [arg_ex|]. split; [left; reflexivity|]. split; [|vm_compute; split; reflexivity].
  split; [cbn; lia|]. split; [arg_ex|]. right. exists 32. split; [cbn; auto|]. intros x Hx. vm_compute in Hx. change (2 ^ (32 - 1)) with 2147483648. lia.
Qed.
Print Assumptions C135_strings_refuted.
(** With threads, values with gaps: the second block is written behind the result. *)
Theorem C135_gaps_refuted : exists v i, arg_ok 2 v /\ is_index i /\ arg_vals 0 i = [0; 1; 0; 1] /\ MBGetCall in_order in_order true 2 7 [] 1 [0] None (PArray v) (PArray i) = Undefined.
Proof.
  exists (mkArg 1 [[1]; [2]; [3]] 0 2 2), (mkArg 5 [0; 1; 0; 1] 0 1 4). split; [arg_ex|]. split; [|vm_compute; split; reflexivity].
  split; [cbn; lia|]. split; [arg_ex|]. left. exists 32. split; [cbn; auto|]. intros x Hx. vm_compute in Hx. change (2 ^ (32 - 1)) with 2147483648. lia.
Qed.
Print Assumptions C135_gaps_refuted.
