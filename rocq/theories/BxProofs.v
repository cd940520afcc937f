(** Proofs about BooleanSum, BooleanToFancy and BooleanIndex from their arguments to their results. *)
From Verif Require Import Base Mem MemLemmas AllModel EaModel EaSpec Ea2Proofs.
From Verif Require Import BxModel BxSpec.
From Verif Require MergeModel MergeSpec MergeProps WnModel Par.
Local Open Scope Z_scope.

Lemma copy_right {X} (zero : X) (a : arg X) : 0 <= a_len a -> arg_ok (a_len a) a -> WnModel.copy_arg a = Some (arg_vals zero a).
Proof.
  intros HL (_ & _ & HI). unfold WnModel.copy_arg, arg_vals. apply Par.all_some_map. intros i Hi. apply in_seq in Hi. specialize (HI (Z.of_nat i) ltac:(lia)).
  unfold zrd. destruct (Z.leb_spec 0 (a_start a + Z.of_nat i * a_step a)); [|lia]. apply nth_error_nth'. lia.
Qed.
Lemma vals_nth {X} (zero : X) (a : arg X) i : (i < Z.to_nat (a_len a))%nat -> nth i (arg_vals zero a) zero = nth (Z.to_nat (a_start a + Z.of_nat i * a_step a)) (a_mem a) zero.
Proof.
  intros H. unfold arg_vals. erewrite nth_error_nth; [|rewrite nth_error_map, nth_error_seq; destruct (Nat.ltb_spec i (Z.to_nat (a_len a))); [reflexivity|lia]]. reflexivity.
Qed.
Lemma vals_len {X} (zero : X) (a : arg X) : length (arg_vals zero a) = Z.to_nat (a_len a).
Proof. unfold arg_vals. now rewrite map_length, seq_length. Qed.
Lemma stride_mul {X} (a : arg X) i : (i < Z.to_nat (a_len a))%nat -> Z.of_nat i * stride_of a = Z.of_nat i * a_step a.
Proof. intros H. unfold stride_of. destruct (Z.ltb_spec 1 (a_len a)); [reflexivity|]. replace i with 0%nat by lia. reflexivity. Qed.
Lemma mask_bytes m : is_mask m -> MergeSpec.bytes (mask_memory m).
Proof.
  intros (_ & _ & _ & F) p. unfold mask_memory. rewrite Forall_forall in F.
  destruct (Nat.lt_ge_cases (Z.to_nat (a_start m + p)) (length (a_mem m))) as [C|C]; [apply F, nth_In, C|rewrite nth_overflow by exact C; lia].
Qed.
Lemma mask_at m i : (i < Z.to_nat (a_len m))%nat -> MergeSpec.mask_true (mask_memory m) (stride_of m) i = negb (nth i (arg_vals 0 m) 0 =? 0).
Proof. intros H. unfold MergeSpec.mask_true, mask_memory. rewrite stride_mul, vals_nth by exact H. reflexivity. Qed.
Lemma rows_set m : MergeSpec.true_positions (mask_memory m) (stride_of m) (length (arg_vals 0 m)) = set_rows (arg_vals 0 m).
Proof. unfold MergeSpec.true_positions, set_rows. apply filter_ext_in. intros i Hi. apply in_seq in Hi. apply mask_at. rewrite <- (vals_len 0 m). lia. Qed.
Lemma rows_unset m : MergeSpec.false_positions (mask_memory m) (stride_of m) (length (arg_vals 0 m)) = unset_rows (arg_vals 0 m).
Proof.
  unfold MergeSpec.false_positions, unset_rows. apply filter_ext_in. intros i Hi. apply in_seq in Hi. rewrite mask_at by (rewrite <- (vals_len 0 m); lia). apply negb_involutive.
Qed.

Lemma sum_call ord thr chunk junk m : fair ord -> (0 < chunk)%nat -> is_mask m -> (thr = true -> 0 < a_len m) ->
  BooleanSumCall ord thr chunk junk (PArray m) = Done (Z.of_nat (length (set_rows (arg_vals 0 m)))).
Proof.
  intros HO HC HM HT. pose proof HM as (T & L & OK & _). unfold BooleanSumCall. rewrite T. change (negb (0 =? 0)) with false. cbv iota. rewrite (copy_right 0 m L OK). cbn [undef obind].
  rewrite (MergeProps.C05_boolean_sum_counts_true ord thr chunk (mask_memory m) (stride_of m) _ junk HO (mask_bytes m HM) HC).
  - rewrite rows_set. reflexivity.
  - intros E. rewrite vals_len. specialize (HT E). lia.
Qed.
Lemma fancy_call ord1 ord2 thr chunk both j1 j2 m : fair ord1 -> fair ord2 -> (0 < chunk)%nat -> is_mask m -> gapless m -> (thr = true -> 0 < a_len m) -> a_len m <= 2 ^ 63 ->
  BooleanToFancyCall ord1 ord2 thr chunk both j1 j2 (PArray m) =
    Done (if a_len m <? 2000000000 then 5 else 7, map Z.of_nat (set_rows (arg_vals 0 m) ++ if both then unset_rows (arg_vals 0 m) else []),
          if both then Some (Z.of_nat (length (set_rows (arg_vals 0 m)))) else None).
Proof.
  intros HO1 HO2 HC HM G HT HL. pose proof HM as (T & L & OK & _). unfold BooleanToFancyCall. rewrite T. change (negb (0 =? 0)) with false. cbv iota.
  rewrite (copy_right 0 m L OK), (read_arg_right 0 (a_len m) m L OK G). cbn [undef obind].
  assert (S : stride_of m = 1) by (unfold stride_of; destruct (Z.ltb_spec 1 (a_len m)); [destruct G; [assumption|lia]|reflexivity]).
  pose proof (rows_set m) as R1. pose proof (rows_unset m) as R2. rewrite S in R1, R2. rewrite S.
  rewrite (MergeProps.C06_boolean_to_fancy_partial ord1 ord2 thr chunk (mask_memory m) _ both j1 j2 HO1 HO2 (mask_bytes m HM) HC).
  - rewrite R1, R2. reflexivity.
  - intros E. rewrite vals_len. specialize (HT E). lia.
  - rewrite vals_len. lia.
Qed.
Lemma index_call ord1 ord2 thr chunk junk j2 size v m : fair ord1 -> fair ord2 -> (0 < chunk)%nat -> 0 < size -> is_mask m -> 0 <= a_len v -> arg_ok (a_len v) v -> a_len m = a_len v ->
  (thr = true -> 0 < a_len m) -> In size [1; 2; 4; 8] \/ gapless v \/ ~ gapless m ->
  BooleanIndexCall ord1 ord2 thr chunk junk j2 size (PArray v) (PArray m) = Done (a_dtype v, map (fun i => nth i (arg_vals [] v) []) (set_rows (arg_vals 0 m))).
Proof.
  intros HO1 HO2 HC HS HM LV OV EL HT HG. pose proof HM as (T & L & OK & _). unfold BooleanIndexCall. rewrite T. change (negb (0 =? 0)) with false. cbv iota.
  rewrite EL, Z.eqb_refl. cbn [negb]. rewrite (copy_right [] v LV OV), (copy_right 0 m L OK). cbn [undef obind].
  rewrite (MergeProps.C05_boolean_index_partial (list Z) (mask_memory m) (value_memory size v) ord1 ord2 thr chunk size (stride_of m) (size * stride_of v) _ junk j2 HO1 HO2 (mask_bytes m HM) HC).
  - cbn [undef obind]. rewrite rows_set. f_equal. f_equal. apply map_ext_in. intros i Hi. unfold set_rows in Hi. apply filter_In in Hi. destruct Hi as (Hi & _). apply in_seq in Hi.
    rewrite vals_len in Hi. unfold value_memory. replace (Z.of_nat i * (size * stride_of v)) with ((Z.of_nat i * stride_of v) * size) by ring. rewrite Z.div_mul by lia.
    rewrite stride_mul by (rewrite <- EL; lia). rewrite vals_nth by (rewrite <- EL; lia). reflexivity.
  - intros E. rewrite vals_len. specialize (HT E). lia.
  - exact HS.
  - destruct HG as [I|[G|G]].
    + right. left. cbn [In] in I. unfold MergeModel.std_size. lia.
    + right. right. unfold stride_of. destruct (Z.ltb_spec 1 (a_len v)); [destruct G; [|lia]|]; lia.
    + left. unfold gapless in G. unfold stride_of. destruct (Z.ltb_spec 1 (a_len m)); lia.
Qed.
Lemma mask_refused ord1 ord2 thr chunk both j1 j2 m : match m with PArray m => a_dtype m <> 0 | _ => True end ->
  BooleanSumCall ord1 thr chunk j1 m = Error /\ BooleanToFancyCall ord1 ord2 thr chunk both j1 j2 m = Error.
Proof. destruct m as [|m|]; [split; reflexivity| |split; reflexivity]. intros H. cbn [BooleanSumCall BooleanToFancyCall]. rewrite (proj2 (Z.eqb_neq _ _) H). split; reflexivity. Qed.
Lemma index_refused ord1 ord2 thr chunk j1 j2 size v m : match v, m with PArray v, PArray m => a_dtype m <> 0 \/ a_len m <> a_len v | _, _ => True end ->
  BooleanIndexCall ord1 ord2 thr chunk j1 j2 size v m = Error.
Proof.
  destruct v as [|v|]; [reflexivity| |reflexivity]. destruct m as [|m|]; [reflexivity| |reflexivity]. intros H. cbn [BooleanIndexCall]. destruct (Z.eqb_spec (a_dtype m) 0); [|reflexivity].
  destruct (Z.eqb_spec (a_len m) (a_len v)); [lia|reflexivity].
Qed.
