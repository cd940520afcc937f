(** Properties C116-C118: CombineFilter, CombineAccum1Filter, CombineAccum2Filter, MakeiFirst and RemoveTrailingSpaces. *)
From Verif Require Import Base Mem AllModel EaModel EaSpec SrSpec.
From Verif Require Import CfModel CfSpec CfProofs.
From Verif Require CombSpec HashSpec.
Local Open Scope Z_scope.

(** ** C116.  Missing: arrays with gaps, booleans that are not 0 or 1, group numbers outside of their range, products of the ranges from 2^63 on. *)
Theorem C116_filter_partial :
  forall ord thr index filter, fair ord -> groups index ->
  a_dtype filter = 0 -> arg_ok (a_len index) filter -> gapless filter -> Forall (fun b => b = 0 \/ b = 1) (arg_vals 0 filter) ->
  exists r, CombineFilterCall ord thr index filter = Done (a_dtype index, r) /\ Z.of_nat (length r) = a_len index /\
    forall i, (i < length r)%nat -> nth_error r i = Some (if keeps (PArray filter) i then nth i (arg_vals 0 index) 0 else 0).
Proof. exact filter_call. Qed.
Print Assumptions C116_filter_partial.
Theorem C116_pairs_partial :
  forall ord thr a1 a2 max1 max2 filter, fair ord -> groups a1 -> groups a2 -> a_len a2 = a_len a1 -> filter_given (a_len a1) filter ->
  -1 <= max1 < 2 ^ 63 - 1 -> -1 <= max2 < 2 ^ 63 - 1 -> (max1 + 1) * (max2 + 1) < 2 ^ 63 ->
  Forall (fun x => 0 <= x <= max1) (arg_vals 0 a1) -> Forall (fun x => 0 <= x <= max2) (arg_vals 0 a2) ->
  exists d r, CombineAccum2Call ord thr a1 a2 max1 max2 filter = Done (d, r) /\ Z.of_nat (length r) = a_len a1 /\
    d = pair_type ((max1 + 1) * (max2 + 1)) /\ (max1 + 1) * (max2 + 1) <= highest d /\
    (forall i, (i < length r)%nat -> nth_error r i = Some (if keeps filter i then nth i (arg_vals 0 a2) 0 * (max1 + 1) + nth i (arg_vals 0 a1) 0 else 0)) /\
    (forall i j, (i < length r)%nat -> (j < length r)%nat -> keeps filter i = true -> keeps filter j = true ->
       (nth_error r i = nth_error r j <-> nth i (arg_vals 0 a1) 0 = nth j (arg_vals 0 a1) 0 /\ nth i (arg_vals 0 a2) 0 = nth j (arg_vals 0 a2) 0)).
Proof. exact pairs_call. Qed.
Print Assumptions C116_pairs_partial.
(** lengths that differ, a filter that is no boolean array, another type *)
Theorem C116_refused_filter :
  forall ord thr index filter, a_len filter <> a_len index \/ a_dtype filter <> 0 \/ ~ group_type (a_dtype index) ->
  CombineFilterCall ord thr index filter = Error.
Proof. exact filter_refused_call. Qed.
Print Assumptions C116_refused_filter.
Theorem C116_refused_pairs :
  forall ord thr a1 a2 max1 max2 filter, -1 <= max1 < 2 ^ 63 - 1 -> -1 <= max2 < 2 ^ 63 - 1 -> (max1 + 1) * (max2 + 1) < 2 ^ 63 ->
  a_len a2 <> a_len a1 \/ filter_bad (a_len a1) filter \/ ~ group_type (a_dtype a1) \/ ~ group_type (a_dtype a2) ->
  CombineAccum2Call ord thr a1 a2 max1 max2 filter = Error.
Proof. exact pairs_refused. Qed.
Print Assumptions C116_refused_pairs.

Definition some_groups : arg Z := mkArg 1 [9; 3; 1; 3; 2; 9] 1 1 4.
Definition some_others : arg Z := mkArg 7 [0; 2; 0; 1] 0 1 4.
Definition some_filter : arg Z := mkArg 0 [1; 1; 0; 1] 0 1 4.
Lemma some_groups_ok : groups some_groups /\ groups some_others.
Proof.
  split; (split; [unfold group_type; cbn [a_dtype some_groups some_others]; lia|split; [split; [cbn; lia|split; [|left; reflexivity]]|]]).
  - unfold arg_ok, some_groups. cbn [a_len a_start a_mem a_step length]. split; [lia|]. split; [lia|intros; lia].
  - change (arg_vals 0 some_groups) with [3; 1; 3; 2]. change (a_dtype some_groups) with 1. unfold of_its_type. change (highest 1) with 127.
    repeat (apply Forall_cons; [lia|]). apply Forall_nil.
  - unfold arg_ok, some_others. cbn [a_len a_start a_mem a_step length]. split; [lia|]. split; [lia|intros; lia].
  - change (arg_vals 0 some_others) with [0; 2; 0; 1]. change (a_dtype some_others) with 7. unfold of_its_type. change (highest 7) with 9223372036854775807.
    repeat (apply Forall_cons; [lia|]). apply Forall_nil.
Qed.
Lemma some_filter_ok : filter_given 4 (PArray some_filter).
Proof.
  split; [reflexivity|]. split; [|left; reflexivity]. unfold arg_ok, some_filter. cbn [a_len a_start a_mem a_step length]. split; [lia|]. split; [lia|intros; lia].
Qed.
Example C116_example : groups some_groups /\ groups some_others /\ filter_given 4 (PArray some_filter) /\
  CombineFilterCall Mem.in_order false some_groups some_filter = Done (1, [3; 1; 0; 2]) /\
  CombineAccum2Call Mem.in_order false some_groups some_others 3 2 (PArray some_filter) = Done (1, [3; 9; 0; 6]) /\
  CombineAccum2Call Mem.in_order false some_groups some_others 30 4 PNone = Done (3, [3; 63; 3; 33]) /\
  CombineAccum2Call Mem.in_order false some_groups some_others 3 2 POther = Error.
Proof. destruct some_groups_ok. split; [auto|]. split; [auto|]. split; [exact some_filter_ok|]. repeat split; vm_compute; reflexivity. Qed.
(** every second element: the element between them is returned *)
Theorem C116_gaps_refuted : exists index filter r, arg_ok 2 index /\ arg_vals 0 index = [1; 2] /\ arg_vals 0 filter = [1; 1] /\
  CombineFilterCall Mem.in_order false index filter = Done (5, r) /\ r <> [1; 2].
Proof.
  exists (mkArg 5 [1; 7; 2] 0 2 2), (mkArg 0 [1; 1] 0 1 2). eexists. split; [|repeat split; try (vm_compute; reflexivity); discriminate].
  unfold arg_ok. cbn [a_len a_start a_mem a_step length]. split; [lia|]. split; [lia|intros; lia].
Qed.
Print Assumptions C116_gaps_refuted.
(** a boolean that is stored as 2 (a view of int8): the number is doubled, and the other functions take the same byte for true *)
Theorem C116_bytes_refuted : exists index filter, arg_vals 0 filter = [2] /\ arg_vals 0 index = [3] /\
  CombineFilterCall Mem.in_order false index filter = Done (5, [6]) /\ CombineAccum2Call Mem.in_order false index index 3 3 (PArray filter) = Done (1, [15]) /\
  CombineAccum2Call Mem.in_order false index index 3 3 PNone = Done (1, [15]).
Proof. exists (mkArg 5 [3] 0 1 1), (mkArg 0 [2] 0 1 1). repeat split; vm_compute; reflexivity. Qed.
Print Assumptions C116_bytes_refuted.
(** the number of pairs overflows: nothing is checked before *)
Theorem C116_overflow_refuted : exists a max1 max2, groups a /\ CombineAccum2Call Mem.in_order false a a max1 max2 PNone = Undefined.
Proof. exists some_others, 9223372036854775806, 2. split; [apply some_groups_ok|vm_compute; reflexivity]. Qed.
Print Assumptions C116_overflow_refuted.

(** ** C117.  Missing: arrays with gaps; a filter that is neither an array nor None is not refused. *)
Theorem C117_groups_partial :
  forall junk index max1 filter, groups index -> a_len index <= 2 ^ 31 -> filter_given (a_len index) filter -> -1 <= max1 < 2000000000 ->
  exists out first, CombineAccum1Call junk index max1 filter = Done (a_dtype index, out, first, Z.of_nat (length first)) /\
    HashSpec.grouped (group_rows index max1 filter) out first.
Proof. exact groups_call. Qed.
Print Assumptions C117_groups_partial.
Theorem C117_first_partial :
  forall index max1 filter last, groups index -> filter_given (a_len index) filter -> -1 <= max1 < 20000000000 -> - 2 ^ 63 <= last < 2 ^ 63 ->
  exists first, MakeiFirstCall index max1 filter last = Done first /\ CombSpec.rows_of_groups (negb (last =? 0)) max1 (group_rows index max1 filter) first.
Proof. exact first_call. Qed.
Print Assumptions C117_first_partial.
(** a filter of another type or length, a number of groups outside of the limits, another type *)
Theorem C117_refused_partial :
  forall junk index max1 filter last, max1 < 2 ^ 63 - 1 -> filter_bad (a_len index) filter /\ filter <> POther \/ ~ group_type (a_dtype index) ->
  CombineAccum1Call junk index max1 filter = Error /\ MakeiFirstCall index max1 filter last = Error.
Proof. intros junk index max1 filter last M H. split; [apply groups_refused|apply first_refused]; intuition. Qed.
Print Assumptions C117_refused_partial.
Theorem C117_limits :
  forall junk index max1 filter last, max1 < 2 ^ 63 - 1 ->
  (~ -1 <= max1 < 2000000000 -> CombineAccum1Call junk index max1 filter = Error) /\ (~ -1 <= max1 < 20000000000 -> MakeiFirstCall index max1 filter last = Error).
Proof. intros junk index max1 filter last M. split; intros H; [apply groups_refused|apply first_refused]; auto. Qed.
Print Assumptions C117_limits.
Example C117_example : groups some_groups /\ filter_given 4 (PArray some_filter) /\
  CombineAccum1Call (fun _ => 55) some_groups 3 (PArray some_filter) = Done (1, [1; 2; 0; 3], [0; 1; 3], 3) /\
  MakeiFirstCall some_groups 3 (PArray some_filter) 0 = Done [- 2 ^ 63; 1; 3; 0] /\ MakeiFirstCall some_groups 3 PNone 1 = Done [- 2 ^ 63; 1; 3; 2].
Proof. split; [apply some_groups_ok|]. split; [exact some_filter_ok|]. repeat split; vm_compute; reflexivity. Qed.
(** a filter that is a list of booleans is ignored without an error *)
Theorem C117_list_refuted : exists index, groups index /\
  CombineAccum1Call (fun _ => 55) index 3 POther = CombineAccum1Call (fun _ => 55) index 3 PNone /\ CombineAccum1Call (fun _ => 55) index 3 POther <> Error /\
  MakeiFirstCall index 3 POther 0 = MakeiFirstCall index 3 PNone 0 /\ MakeiFirstCall index 3 POther 0 <> Error.
Proof. exists some_groups. split; [apply some_groups_ok|]. repeat split; vm_compute; discriminate. Qed.
Print Assumptions C117_list_refuted.
(** every second row: the rows between them are grouped *)
Theorem C117_gaps_refuted : exists index first, arg_ok 2 index /\ arg_vals 0 index = [1; 2] /\ MakeiFirstCall index 2 PNone 0 = Done first /\
  nth_error first 2 = Some (- 2 ^ 63).
Proof.
  exists (mkArg 5 [1; 1; 2] 0 2 2). eexists. split; [|repeat split; vm_compute; reflexivity].
  unfold arg_ok. cbn [a_len a_start a_mem a_step length]. split; [lia|]. split; [lia|intros; lia].
Qed.
Print Assumptions C117_gaps_refuted.

(** ** C118.  Missing: arrays with gaps. *)
Theorem C118_spaces_partial :
  forall size a, texts_of size a ->
  exists mem, RemoveTrailingSpacesCall size a = Done mem /\ elsewhere (a_start a * Z.of_nat size) (a_len a * Z.of_nat size) (concat (a_mem a)) mem /\
    forall i, Z.of_nat i < a_len a -> CombSpec.trimmed (nth i (arg_vals [] a) []) (item_at size (Z.to_nat (a_start a) + i) mem).
Proof. exact spaces_call. Qed.
Print Assumptions C118_spaces_partial.
Theorem C118_refused : forall size a, a_dtype a <> 18 -> a_dtype a <> 19 -> RemoveTrailingSpacesCall size a = Error.
Proof. exact spaces_refused. Qed.
Print Assumptions C118_refused.
Definition some_texts : arg (list Z) := mkArg 18 [[65; 32; 32]; [66; 32; 67]; [32; 32; 0]; [68; 32; 0]] 1 1 2.
Example C118_example : texts_of 3 some_texts /\ RemoveTrailingSpacesCall 3 some_texts = Done [65; 32; 32; 66; 32; 67; 0; 0; 0; 68; 32; 0].
Proof.
  split; [|vm_compute; reflexivity]. split; [left; reflexivity|]. split; [split; [cbn; lia|split; [|left; reflexivity]]|cbn; repeat constructor].
  unfold arg_ok, some_texts. cbn [a_len a_start a_mem a_step length]. split; [lia|]. split; [lia|intros; lia].
Qed.
(** every second text: a text that is not of the array is changed, and one of the array is not *)
Theorem C118_gaps_refuted : exists a mem, a_dtype a = 18 /\ arg_ok 2 a /\ arg_vals [] a = [[65; 32]; [66; 32]] /\ RemoveTrailingSpacesCall 2 a = Done mem /\
  item_at 2 1 (concat (a_mem a)) = [67; 32] /\ item_at 2 1 mem = [67; 0] /\ item_at 2 2 mem = [66; 32].
Proof.
  exists (mkArg 18 [[65; 32]; [67; 32]; [66; 32]] 0 2 2). eexists. split; [reflexivity|]. split; [|repeat split; vm_compute; reflexivity].
  unfold arg_ok. cbn [a_len a_start a_mem a_step length]. split; [lia|]. split; [lia|intros; lia].
Qed.
Print Assumptions C118_gaps_refuted.
