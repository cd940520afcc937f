(** Properties C130 and C131: ReverseShuffle and ReIndexGroups from their arguments to their effects. *)
From Verif Require Import Base Mem AllModel EaModel EaSpec.
From Verif Require Import MwModel MwSpec RvModel RvSpec RvProofs.
From Verif Require MergeSpec.
Local Open Scope Z_scope.

(** ** C130.  Missing: arrays with gaps ([C130_gaps_refuted]). *)
Theorem C130_reverse_partial : forall ord thr chunk junk a w, fair ord -> (0 < chunk)%nat -> signed_of w (a_dtype a) -> plain a -> shuffle w (arg_vals 0 a) ->
  exists out, ReverseShuffleCall ord thr chunk junk (PArray a) = Done (a_dtype a, out) /\ length out = length (arg_vals 0 a) /\
    (forall i x, nth_error (arg_vals 0 a) i = Some x -> nth_error out (Z.to_nat x) = Some (Z.of_nat i)) /\
    (forall j y, nth_error out j = Some y -> nth_error (arg_vals 0 a) (Z.to_nat y) = Some (Z.of_nat j)).
Proof. exact reverse_call. Qed.
Print Assumptions C130_reverse_partial.
(** Whatever the numbers: an array of the same length, or an error. *)
Theorem C130_safe_partial : forall ord thr chunk junk a, fair ord -> (0 < chunk)%nat -> plain a ->
  (exists out, ReverseShuffleCall ord thr chunk junk (PArray a) = Done (a_dtype a, out) /\ length out = length (arg_vals 0 a)) \/
  ReverseShuffleCall ord thr chunk junk (PArray a) = Error.
Proof. exact reverse_safe. Qed.
Print Assumptions C130_safe_partial.
Theorem C130_refused : forall ord thr chunk junk k, match k with PArray a => 10 <= a_dtype a \/ Z.even (a_dtype a) = true | _ => True end ->
  ReverseShuffleCall ord thr chunk junk k = Error.
Proof. exact reverse_refused. Qed.
Print Assumptions C130_refused.
Ltac plain_ex := unfold plain, arg_ok, gapless; cbn [s_arg a_len a_start a_mem a_step length]; split; [lia|]; split; [split; [lia|]; split; [lia|intros; lia]|left; reflexivity].
Example C130_example : let a := mkArg 1 [9; 2; 0; 1] 1 1 3 in
  plain a /\ signed_of 8 (a_dtype a) /\ shuffle 8 (arg_vals 0 a) /\ ReverseShuffleCall in_order true 2 7 (PArray a) = Done (1, [1; 2; 0]).
Proof.
  cbv zeta. split; [plain_ex|]. split; [left; split; reflexivity|]. split; [|reflexivity]. unfold shuffle. change (arg_vals 0 _) with [2; 0; 1]. split; [|vm_compute; discriminate].
  cbn [length seq map Z.of_nat]. change (Z.of_nat 0) with 0. change (Z.of_nat 1) with 1. change (Z.of_nat 2) with 2.
  apply perm_trans with [0; 2; 1]; [apply perm_swap|apply perm_skip, perm_swap].
Qed.
(** An array with gaps is read as if it had none: 2, 0, 1 becomes what 2, 5, 0 would. *)
Theorem C130_gaps_refuted : exists a, arg_ok 3 a /\ a_dtype a = 1 /\ arg_vals 0 a = [2; 0; 1] /\ ReverseShuffleCall in_order true 2 7 (PArray a) = Done (1, [2; 7; 0]).
Proof.
  exists (mkArg 1 [2; 5; 0; 5; 1] 0 2 3). split; [unfold arg_ok; cbn [a_len a_start a_mem a_step length]; split; [lia|]; split; [lia|intros; lia]|]. vm_compute. repeat split.
Qed.
Print Assumptions C130_gaps_refuted.

(** ** C131.  Missing: arrays with gaps ([C131_gaps_refuted]); ends of partitions that do not ascend or lie outside of the rows, and fewer ends of rows than of
    uniques ([C131_short_refuted], [C131_range_refuted]); numbers of another type ([integers]). *)
Theorem C131_reindex_partial : forall order w k u uc ic, integer_array w k -> integer_array 32 u -> integer_array 64 uc -> integer_array 64 ic ->
  a_len (s_arg ic) = a_len (s_arg uc) -> a_len (s_arg uc) < 2 ^ 31 -> Permutation order (seq 0 (Z.to_nat (a_len (s_arg uc)))) ->
  (forall x, In x (arg_vals 0 (s_arg uc)) -> 0 <= x) -> cuts (a_len (s_arg k)) (arg_vals 0 (s_arg ic)) ->
  exists keys mem, ReIndexGroupsCall order (Some k) (Some u) (Some uc) (Some ic) = Done mem /\ now_holds 0 (s_arg k) keys mem /\
    (forall t i, (t < Z.to_nat (a_len (s_arg ic)))%nat -> MergeSpec.part_lo (arg_vals 0 (s_arg ic)) t <= Z.of_nat i < nth t (arg_vals 0 (s_arg ic)) 0 ->
       nth_error keys i = option_map (MergeSpec.remapped w (arg_vals 0 (s_arg u)) (MergeSpec.part_lo (arg_vals 0 (s_arg uc)) t)) (nth_error (arg_vals 0 (s_arg k)) i)) /\
    (forall i, (forall x, In x (arg_vals 0 (s_arg ic)) -> x <= Z.of_nat i) -> nth_error keys i = nth_error (arg_vals 0 (s_arg k)) i).
Proof. exact reindex_call. Qed.
Print Assumptions C131_reindex_partial.
Theorem C131_refused : forall order k u uc ic,
  match k, u, uc, ic with
  | Some k, Some u, Some uc, Some ic => s_bytes uc <> 8 \/ s_bytes ic <> 8 \/ s_bytes u <> 4 \/ ~ In (s_bytes k) [1; 2; 4; 8]
  | _, _, _, _ => True end -> ReIndexGroupsCall order k u uc ic = Error.
Proof. exact reindex_refused. Qed.
Print Assumptions C131_refused.
(** Two partitions of three rows; the keys lie behind another number. *)
Definition some_keys : sized := mkSized 1 (mkArg 1 [99; 1; 3; 0; 2; 1; 3; 44] 1 1 7).
Definition some_uniques : sized := mkSized 4 (mkArg 5 [7; 8; 9; 5; 6] 0 1 5).
Definition some_ends (a b : Z) : sized := mkSized 8 (mkArg 7 [a; b] 0 1 2).
Example C131_example :
  integer_array 8 some_keys /\ integer_array 32 some_uniques /\ integer_array 64 (some_ends 3 5) /\ cuts 7 (arg_vals 0 (s_arg (some_ends 3 6))) /\
  ReIndexGroupsCall [1; 0]%nat (Some some_keys) (Some some_uniques) (Some (some_ends 3 5)) (Some (some_ends 3 6)) = Done [99; 7; 9; 0; 6; 5; 0; 44].
Proof.
  unfold some_keys, some_uniques, some_ends. split; [split; [left; split; reflexivity|]; split; [reflexivity|plain_ex]|].
  split; [split; [right; right; left; split; reflexivity|]; split; [reflexivity|plain_ex]|].
  split; [split; [right; right; right; split; [reflexivity|left; reflexivity]|]; split; [reflexivity|plain_ex]|]. split; [|vm_compute; reflexivity].
  change (arg_vals 0 _) with [3; 6]. split.
  - cbn [length]. intros a b H. assert (C : (a = 0 /\ b = 0 \/ a = 0 /\ b = 1 \/ a = 1 /\ b = 1)%nat) by lia. destruct C as [(-> & ->)|[(-> & ->)|(-> & ->)]]; cbn [nth]; lia.
  - intros x [<-|[<-|[]]]; lia.
Qed.
(** The two lists of ends are not compared: memory behind the shorter one is read. *)
Theorem C131_short_refuted : forall order k u uc ic w, integer_array w k -> integer_array 32 u -> integer_array 64 uc -> integer_array 64 ic ->
  a_len (s_arg ic) < a_len (s_arg uc) -> ReIndexGroupsCall order (Some k) (Some u) (Some uc) (Some ic) = Undefined.
Proof. exact reindex_short. Qed.
Print Assumptions C131_short_refuted.
Example C131_short_ex : let ic := mkSized 8 (mkArg 7 [3] 0 1 1) in integer_array 64 ic /\ a_len (s_arg ic) < a_len (s_arg (some_ends 3 5)).
Proof. cbv zeta. split; [split; [right; right; right; split; [reflexivity|left; reflexivity]|]; split; [reflexivity|plain_ex]|reflexivity]. Qed.
(** Ends behind the last row: memory behind the keys is changed. *)
Theorem C131_range_refuted : ReIndexGroupsCall [0; 1]%nat (Some some_keys) (Some some_uniques) (Some (some_ends 3 5)) (Some (some_ends 3 8)) = Undefined.
Proof. vm_compute. reflexivity. Qed.
Print Assumptions C131_range_refuted.
(** Keys with gaps: the numbers between them are changed. *)
Theorem C131_gaps_refuted : exists k, arg_ok 2 (s_arg k) /\ arg_vals 0 (s_arg k) = [1; 2] /\ s_bytes k = 1 /\
  ReIndexGroupsCall [0; 1]%nat (Some k) (Some some_uniques) (Some (some_ends 3 5)) (Some (some_ends 1 2)) = Done [7; 6; 2].
Proof.
  exists (mkSized 1 (mkArg 1 [1; 2; 2] 0 2 2)). split; [unfold arg_ok; cbn [s_arg a_len a_start a_mem a_step length]; split; [lia|]; split; [lia|intros; lia]|]. vm_compute. repeat split.
Qed.
Print Assumptions C131_gaps_refuted.
