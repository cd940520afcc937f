(** Properties C11 and C13: group-by reductions, sequential and scattered over the threads. *)
From Verif Require Import Base Mem Num AccumModel AccumSpec Accum2Proofs Accum3Proofs Accum4Proofs Accum5Proofs.
Local Open Scope Z_scope.

(** ** C11.  All value types, any addition (also one that rounds). *)
Theorem C11_sum :
  forall (T U : Type) okT (uinv zero : U) (conv : T -> U) add low high rows out0,
  0 <= low <= high -> high <= Z.of_nat (length out0) ->
  exists res, GroupByOne (AccumSum okT uinv zero conv add) low high rows out0 = Some res /\ length res = length out0 /\
    reduced (sum_spec okT uinv zero conv add) low high rows res /\ outside_kept low high out0 res.
Proof. exact (@seq_sum). Qed.
Print Assumptions C11_sum.

Theorem C11_nansum :
  forall (T U : Type) okT (zero : U) (conv : T -> U) add low high rows out0,
  0 <= low <= high -> high <= Z.of_nat (length out0) ->
  exists res, GroupByOne (AccumNanSum okT zero conv add) low high rows out0 = Some res /\ length res = length out0 /\
    reduced (nansum_spec okT zero conv add) low high rows res /\ outside_kept low high out0 res.
Proof. exact (@seq_nansum). Qed.
Print Assumptions C11_nansum.

Theorem C11_mean :
  forall (T U : Type) okT (uinv zero : U) (conv : T -> U) add div low high rows out0,
  0 <= low <= high -> high <= Z.of_nat (length out0) ->
  exists res, GroupByOne (AccumMean okT uinv zero conv add div) low high rows out0 = Some res /\ length res = length out0 /\
    reduced (mean_spec okT uinv zero conv add div) low high rows res /\ outside_kept low high out0 res.
Proof. exact (@seq_mean). Qed.
Print Assumptions C11_mean.

Theorem C11_nanmean :
  forall (T U : Type) okT (uinv zero : U) (conv : T -> U) add div low high rows out0,
  0 <= low <= high -> high <= Z.of_nat (length out0) ->
  exists res, GroupByOne (AccumNanMean okT uinv zero conv add div) low high rows out0 = Some res /\ length res = length out0 /\
    reduced (nanmean_spec okT uinv zero conv add div) low high rows res /\ outside_kept low high out0 res.
Proof. exact (@seq_nanmean). Qed.
Print Assumptions C11_nanmean.

(** Minimum; with the order reversed, maximum. *)
Theorem C11_min :
  forall (T U : Type) okT okU (uinv : U) (conv : T -> U) lt low high rows out0,
  order_ok okU lt -> (forall x, okT x = true -> okU (conv x) = true) -> 0 <= low <= high -> high <= Z.of_nat (length out0) ->
  exists res, GroupByOne (AccumMin okT uinv conv lt) low high rows out0 = Some res /\ length res = length out0 /\
    reduced (min_spec okT uinv conv lt) low high rows res /\ outside_kept low high out0 res.
Proof. exact (@seq_min). Qed.
Print Assumptions C11_min.

Theorem C11_nanmin :
  forall (T U : Type) okT okU (uinv : U) (conv : T -> U) lt low high rows out0,
  order_ok okU lt -> (forall x, okT x = true -> okU (conv x) = true) -> okU uinv = false -> 0 <= low <= high -> high <= Z.of_nat (length out0) ->
  exists res, GroupByOne (AccumNanMin okT okU uinv conv lt) low high rows out0 = Some res /\ length res = length out0 /\
    reduced (nanmin_spec okT uinv conv lt) low high rows res /\ outside_kept low high out0 res.
Proof. exact (@seq_nanmin). Qed.
Print Assumptions C11_nanmin.

(** Concrete types meet the hypotheses, for minimum and maximum. *)
Theorem C11_orders :
  order_ok ok64 Z.ltb /\ order_ok ok64 (fun a b => b <? a) /\ order_ok fok flt /\ order_total ok64 Z.ltb /\ order_total fok flt.
Proof. exact (conj z_order (conj z_order_max (conj f_order (conj z_order_total f_order_total)))). Qed.
Print Assumptions C11_orders.

Example C11_example :
  let rows := [(1, 10); (2, 5); (1, 7); (0, 99); (3, INV64); (2, INV64); (2, 6)] in
  GroupByOne (AccumSum ok64 INV64 0 (fun x => x) add64) 1 5 rows [-7; 0; 0; 0; 0] = Some [-7; 17; INV64; INV64; 0] /\
  GroupByOne (AccumNanSum ok64 0 (fun x => x) add64) 1 5 rows [-7; 0; 0; 0; 0] = Some [-7; 17; 11; 0; 0] /\
  GroupByOne (AccumMin ok64 INV64 (fun x => x) Z.ltb) 1 5 rows [-7; 0; 0; 0; 0] = Some [-7; 7; INV64; INV64; INV64] /\
  GroupByOne (AccumNanMin ok64 ok64 INV64 (fun x => x) (fun a b => b <? a)) 1 5 rows [-7; 0; 0; 0; 0] = Some [-7; 10; 6; INV64; INV64] /\
  GroupByOne (AccumMean ok64 INV64 0 (fun x => x) add64 Z.quot) 1 5 rows [-7; 0; 0; 0; 0] = Some [-7; 8; INV64; INV64; INV64] /\
  GroupByOne (AccumNanMean ok64 INV64 0 (fun x => x) add64 Z.quot) 1 5 rows [-7; 0; 0; 0; 0] = Some [-7; 8; 5; INV64; INV64].
Proof. vm_compute. repeat split; reflexivity. Qed.

(** float32: accumulated in float64.  sum, mean and nanmean are right ... *)
Theorem C11_float32 :
  forall (T U D : Type) okT (uinv zero : U) (zeroD invD : D) (convD : T -> D) castf addD divD low high rows out0 tmp0,
  castf zeroD = zero -> 0 <= low <= high -> high <= Z.of_nat (length out0) -> length tmp0 = length out0 ->
  (exists res, GroupByOneFloat zero zeroD (AccumSumFloat okT uinv convD castf addD) low high rows out0 tmp0 = Some res /\
     length res = length out0 /\ reduced (sumf_spec okT uinv zeroD convD castf addD) low high rows res) /\
  (exists res, GroupByOneFloat zero zeroD (AccumMeanFloat okT uinv invD convD castf addD divD) low high rows out0 tmp0 = Some res /\
     length res = length out0 /\ reduced (meanf_spec okT uinv zeroD convD castf addD divD) low high rows res) /\
  (exists res, GroupByOneFloat zero zeroD (AccumNanMeanFloat okT uinv convD castf addD divD) low high rows out0 tmp0 = Some res /\
     length res = length out0 /\ reduced (nanmeanf_spec okT uinv zeroD convD castf addD divD) low high rows res).
Proof. exact (@seq_float). Qed.
Print Assumptions C11_float32.

(** ... nansum only if the range starts at bin 0 or has fewer bins than there are rows. *)
Theorem C11_nansum_float32_partial :
  forall (T U D : Type) okT (uinv zero : U) (zeroD : D) (convD : T -> D) castf addD low high rows out0 tmp0,
  castf zeroD = zero -> 0 <= low <= high -> high <= Z.of_nat (length out0) -> length tmp0 = length out0 ->
  low = 0 \/ high - low < Z.of_nat (length rows) ->
  exists res, GroupByOneFloat zero zeroD (AccumNanSumFloat okT convD castf addD) low high rows out0 tmp0 = Some res /\
     length res = length out0 /\ reduced (nansumf_spec okT zeroD convD castf addD) low high rows res.
Proof. exact (@seq_nansum_float). Qed.
Print Assumptions C11_nansum_float32_partial.

(** The memset clears bins 0 .. n-1 instead of binLow .. binHigh-1: the result of the last, empty group is what
    the memory held before. *)
Theorem C11_nansum_float32_uninitialised_refuted :
  forall j, GroupByOneFloat (Fin 0) (Fin 0) (AccumNanSumFloat fok (fun x => x) (fun x => x) fadd) 1 3 [(1, Fin 5)] [Fin 1; Fin 1; j] [Fin 0; Fin 0; Fin 0]
  = Some [Fin 0; Fin 5; j].
Proof. exact nansum_float_seq_bad. Qed.
Print Assumptions C11_nansum_float32_uninitialised_refuted.

Example C11_float32_example :
  GroupByOneFloat (Fin 0) (Fin 0) (AccumSumFloat fok NaN (fun x => x) (fun x => x) fadd) 1 4 [(1, Fin 5); (2, NaN); (1, Fin 2); (2, Fin 1)] [Fin 9; Fin 9; Fin 9; Fin 9] [Fin 8; Fin 8; Fin 8; Fin 8]
  = Some [Fin 9; Fin 7; NaN; Fin 0] /\
  GroupByOneFloat (Fin 0) (Fin 0) (AccumNanSumFloat fok (fun x => x) (fun x => x) fadd) 1 4 [(1, Fin 5); (2, NaN); (1, Fin 2); (2, Fin 1)] [Fin 9; Fin 9; Fin 9; Fin 9] [Fin 8; Fin 8; Fin 8; Fin 8]
  = Some [Fin 0; Fin 7; Fin 1; Fin 0].
Proof. vm_compute. split; reflexivity. Qed.

(** ** C13.  For every block size and every assignment of the blocks to the cores, if the addition is exact. *)
Theorem C13_sum :
  forall (T U : Type) okT (uinv zero : U) (conv : T -> U) add low high c rows asg junks out0 out1,
  exact_add zero add -> scattered low high c rows asg junks out0 out1 ->
  exists r1 r2, GroupByScatter uinv (AccumSum okT uinv zero conv add) (GatherSum uinv zero add) low high asg junks out0 = Some r1 /\
    GroupByOne (AccumSum okT uinv zero conv add) low high rows out1 = Some r2 /\ agree low high r1 r2 /\
    reduced (sum_spec okT uinv zero conv add) low high rows r1.
Proof. exact (@both_sum). Qed.
Print Assumptions C13_sum.

Theorem C13_nansum :
  forall (T U : Type) okT (uinv zero : U) (conv : T -> U) add low high c rows asg junks out0 out1,
  exact_add zero add -> scattered low high c rows asg junks out0 out1 ->
  exists r1 r2, GroupByScatter uinv (AccumNanSum okT zero conv add) (GatherNanSum zero add) low high asg junks out0 = Some r1 /\
    GroupByOne (AccumNanSum okT zero conv add) low high rows out1 = Some r2 /\ agree low high r1 r2 /\
    reduced (nansum_spec okT zero conv add) low high rows r1.
Proof. exact (@both_nansum). Qed.
Print Assumptions C13_nansum.

Theorem C13_mean :
  forall (T U : Type) okT okU (uinv zero : U) (conv : T -> U) add div low high c rows asg junks out0 out1,
  exact_add zero add -> okU uinv = false -> (forall s n, okU s = false -> div s n = uinv) ->
  scattered low high c rows asg junks out0 out1 ->
  exists r1 r2, GroupByScatter uinv (AccumMean okT uinv zero conv add div) (GatherMean okU uinv zero add div) low high asg junks out0 = Some r1 /\
    GroupByOne (AccumMean okT uinv zero conv add div) low high rows out1 = Some r2 /\ agree low high r1 r2 /\
    reduced (mean_spec okT uinv zero conv add div) low high rows r1.
Proof. exact (@both_mean). Qed.
Print Assumptions C13_mean.

Theorem C13_nanmean :
  forall (T U : Type) okT (uinv zero : U) (conv : T -> U) add div low high c rows asg junks out0 out1,
  exact_add zero add -> scattered low high c rows asg junks out0 out1 ->
  exists r1 r2, GroupByScatter uinv (AccumNanMean okT uinv zero conv add div) (GatherNanMean uinv zero add div) low high asg junks out0 = Some r1 /\
    GroupByOne (AccumNanMean okT uinv zero conv add div) low high rows out1 = Some r2 /\ agree low high r1 r2 /\
    reduced (nanmean_spec okT uinv zero conv add div) low high rows r1.
Proof. exact (@both_nanmean). Qed.
Print Assumptions C13_nanmean.

Theorem C13_min :
  forall (T U : Type) okT okU (uinv : U) (conv : T -> U) lt low high c rows asg junks out0 out1,
  order_ok okU lt -> order_total okU lt -> (forall x, okT x = true -> okU (conv x) = true) -> okU uinv = false ->
  scattered low high c rows asg junks out0 out1 ->
  exists r1 r2, GroupByScatter uinv (AccumMin okT uinv conv lt) (GatherMin okU uinv lt) low high asg junks out0 = Some r1 /\
    GroupByOne (AccumMin okT uinv conv lt) low high rows out1 = Some r2 /\ agree low high r1 r2 /\
    reduced (min_spec okT uinv conv lt) low high rows r1.
Proof. exact (@both_min). Qed.
Print Assumptions C13_min.

Theorem C13_nanmin :
  forall (T U : Type) okT okU (uinv : U) (conv : T -> U) lt low high c rows asg junks out0 out1,
  order_ok okU lt -> order_total okU lt -> (forall x, okT x = true -> okU (conv x) = true) -> okU uinv = false ->
  scattered low high c rows asg junks out0 out1 ->
  exists r1 r2, GroupByScatter uinv (AccumNanMin okT okU uinv conv lt) (GatherNanMin okU lt) low high asg junks out0 = Some r1 /\
    GroupByOne (AccumNanMin okT okU uinv conv lt) low high rows out1 = Some r2 /\ agree low high r1 r2 /\
    reduced (nanmin_spec okT uinv conv lt) low high rows r1.
Proof. exact (@both_nanmin). Qed.
Print Assumptions C13_nanmin.

(** 64-bit integer addition (wrapping) and floating point addition without rounding are exact. *)
Theorem C13_exact_instances : exact_add 0 add64 /\ exact_add (Fin 0) fadd.
Proof. exact (conj add64_exact fadd_exact). Qed.
Print Assumptions C13_exact_instances.

Example C13_example :
  let rows := [(1, 10); (2, 5); (1, 7); (0, 99); (3, INV64); (2, INV64); (2, 6)] in
  let asg := [[[(0, 99); (3, INV64)]]; []; [[(2, 6)]; [(1, 10); (2, 5); (1, 7)] ; [(2, INV64)]]] in
  GroupByScatter INV64 (AccumSum ok64 INV64 0 (fun x => x) add64) (GatherSum INV64 0 add64) 1 5 asg (repeat (repeat 77 5) 3) (repeat 66 5)
    = Some [0; 17; INV64; INV64; 0] /\
  GroupByScatter INV64 (AccumNanMin ok64 ok64 INV64 (fun x => x) Z.ltb) (GatherNanMin ok64 Z.ltb) 1 5 asg (repeat (repeat 77 5) 3) (repeat 66 5)
    = Some [66; 7; 5; INV64; INV64].
Proof. vm_compute. split; reflexivity. Qed.

Example C13_scattered_example :
  scattered 1 3 2 [(1, 10); (2, 5); (1, 7)] [[[(1, 7)]]; []; [[(1, 10); (2, 5)]]] (repeat (repeat 77 3) 3) (repeat 66 3) (repeat 55 3).
Proof. repeat split; simpl; try lia; try discriminate; [apply perm_swap | repeat constructor]. Qed.

(** float32 over float64: right for sum and mean if the cast commutes with the additions (no rounding) ... *)
Theorem C13_sum_float32 :
  forall (T U D : Type) okT (uinv zero : U) (zeroD : D) (convD : T -> D) castf add addD,
  castf zeroD = zero -> (forall s x, castf (addD s (convD x)) = add (castf s) (castf (convD x))) ->
  forall low high c rows asg junks (out0 : list U),
  exact_add zero add -> (0 < c)%nat -> assigned c rows asg -> asg <> [] -> length junks = length asg ->
  0 <= low <= high -> high <= Z.of_nat (length out0) -> Forall (fun j => length j = length out0) junks ->
  exists res, GroupByScatterFloat uinv zero zeroD (AccumSumFloat okT uinv convD castf addD) (GatherSum uinv zero add) low high asg junks out0 = Some res /\
    length res = length out0 /\ reduced (sum_spec okT uinv zero (fun x => castf (convD x)) add) low high rows res.
Proof. exact (fun T U D okT uinv zero zeroD convD castf add addD => @scatter_sum_float T U D okT (fun _ => true) uinv zero zeroD zeroD convD castf add (fun s _ => s) addD (fun s _ => s)). Qed.
Print Assumptions C13_sum_float32.

(** ... and for nansum and nanmean if moreover the range starts at bin 0. *)
Theorem C13_nansum_float32_partial :
  forall (T U D : Type) okT (uinv zero : U) (zeroD : D) (convD : T -> D) castf add addD,
  castf zeroD = zero -> (forall s x, castf (addD s (convD x)) = add (castf s) (castf (convD x))) ->
  forall low high c rows asg junks (out0 : list U),
  exact_add zero add -> (0 < c)%nat -> assigned c rows asg -> asg <> [] -> length junks = length asg ->
  0 <= low <= high -> high <= Z.of_nat (length out0) -> Forall (fun j => length j = length out0) junks -> low = 0 ->
  exists res, GroupByScatterFloat uinv zero zeroD (AccumNanSumFloat okT convD castf addD) (GatherNanSum zero add) low high asg junks out0 = Some res /\
    length res = length out0 /\ reduced (nansum_spec okT zero (fun x => castf (convD x)) add) low high rows res.
Proof. exact (fun T U D okT uinv zero zeroD convD castf add addD => @scatter_nansum_float T U D okT (fun _ => true) uinv zero zeroD zeroD convD castf add (fun s _ => s) addD (fun s _ => s)). Qed.
Print Assumptions C13_nansum_float32_partial.

Theorem C13_mean_float32 :
  forall (T U D : Type) okT okU (uinv zero : U) (zeroD invD : D) (convD : T -> D) castf add div addD divD,
  castf zeroD = zero -> (forall s x, castf (addD s (convD x)) = add (castf s) (castf (convD x))) ->
  forall low high c rows asg junks (out0 : list U),
  exact_add zero add -> (0 < c)%nat -> assigned c rows asg -> asg <> [] -> length junks = length asg ->
  0 <= low <= high -> high <= Z.of_nat (length out0) -> Forall (fun j => length j = length out0) junks ->
  okU uinv = false -> (forall s n, okU s = false -> div s n = uinv) ->
  exists res, GroupByScatterFloat uinv zero zeroD (AccumMeanFloat okT uinv invD convD castf addD divD) (GatherMean okU uinv zero add div) low high asg junks out0 = Some res /\
    length res = length out0 /\ reduced (mean_spec okT uinv zero (fun x => castf (convD x)) add div) low high rows res.
Proof. exact (@scatter_mean_float). Qed.
Print Assumptions C13_mean_float32.

Theorem C13_nanmean_float32_partial :
  forall (T U D : Type) okT (uinv zero : U) (zeroD : D) (convD : T -> D) castf add div addD divD,
  castf zeroD = zero -> (forall s x, castf (addD s (convD x)) = add (castf s) (castf (convD x))) ->
  forall low high c rows asg junks (out0 : list U),
  exact_add zero add -> (0 < c)%nat -> assigned c rows asg -> asg <> [] -> length junks = length asg ->
  0 <= low <= high -> high <= Z.of_nat (length out0) -> Forall (fun j => length j = length out0) junks -> low = 0 ->
  exists res, GroupByScatterFloat uinv zero zeroD (AccumNanMeanFloat okT uinv convD castf addD divD) (GatherNanMean uinv zero add div) low high asg junks out0 = Some res /\
    length res = length out0 /\ reduced (nanmean_spec okT uinv zero (fun x => castf (convD x)) add div) low high rows res.
Proof. exact (fun T U D okT uinv zero zeroD convD castf add div addD divD => @scatter_nanmean_float T U D okT (fun _ => true) uinv zero zeroD zeroD convD castf add div addD divD). Qed.
Print Assumptions C13_nanmean_float32_partial.

(** 16385 rows, bins 1 and 2: the core that got the second block (one row) leaves the uninitialised value of
    bin 2 in its buffer and the gather adds it to the sum of the empty group 2. *)
Theorem C13_nansum_float32_uninitialised_refuted : exists rows asg junks out0 r,
  assigned (Z.to_nat 16384) rows asg /\ length junks = length asg /\ Forall (fun j => length j = length out0) junks /\
  GroupByScatterFloat NaN (Fin 0) (Fin 0) (AccumNanSumFloat fok (fun x => x) (fun x => x) fadd) (GatherNanSum (Fin 0) fadd) 1 3 asg junks out0 = Some r /\
  group_vals rows 2 = [] /\ nth_error r 2 = Some (Fin 77).
Proof. exact nansum_float_scatter_bad. Qed.
Print Assumptions C13_nansum_float32_uninitialised_refuted.

(** With rounding additions the result depends on the assignment of blocks to cores. *)
Theorem C13_rounding_depends_on_schedule_refuted : exists rows asg1 asg2 r1 r2,
  assigned 1 rows asg1 /\ assigned 1 rows asg2 /\
  GroupByScatter INV64 (AccumSum ok64 INV64 0 (fun x => x) add_round) (GatherSum INV64 0 add_round) 0 1 asg1 [[0]] [0] = Some r1 /\
  GroupByScatter INV64 (AccumSum ok64 INV64 0 (fun x => x) add_round) (GatherSum INV64 0 add_round) 0 1 asg2 [[0]; [0]] [0] = Some r2 /\
  ~ agree 0 1 r1 r2.
Proof. exact inexact_scatter_bad. Qed.
Print Assumptions C13_rounding_depends_on_schedule_refuted.
