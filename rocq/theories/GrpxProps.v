(** Properties C12, C16 and C43-C48: the group-by functions on packed groups. *)
From Verif Require Import Base Mem Num GroupSpec AccumSpec GrpxModel GrpxSpec Grpx4Proofs.
From Verif Require Accum5Proofs.
Local Open Scope Z_scope.

(** ** C16.  iGroup, iFirst and nCount are the packed layout of the keys (C14); any number of groups, empty ones included. *)
Theorem C16_nth :
  forall (T U : Type) (n : Z) keys (src : list T) ncount igroup ifirst (uinv : U) (conv : T -> U) ord thr numCores nrows low high out0 k,
  layout n keys src ncount igroup ifirst -> fair ord -> 0 <= low <= high -> high <= n -> n = Z.of_nat (length out0) ->
  exists res, GroupByAllPack32 ord thr false numCores nrows (xcall (AccumNth src igroup ifirst ncount uinv conv k)) low high n out0 = Some res /\
    per_bin (nth_spec uinv conv k) low high keys src out0 res.
Proof. intros; now apply call_nth. Qed.
Print Assumptions C16_nth.

Theorem C16_first :
  forall (T U : Type) (n : Z) keys (src : list T) ncount igroup ifirst (uinv : U) (conv : T -> U) ord thr numCores nrows low high out0,
  layout n keys src ncount igroup ifirst -> fair ord -> 0 <= low <= high -> high <= n -> n = Z.of_nat (length out0) ->
  exists res, GroupByAllPack32 ord thr false numCores nrows (xcall (AccumFirst src igroup ifirst ncount uinv conv)) low high n out0 = Some res /\
    per_bin (first_spec uinv conv) low high keys src out0 res.
Proof. intros; now apply call_first. Qed.
Print Assumptions C16_first.

Theorem C16_last :
  forall (T U : Type) (n : Z) keys (src : list T) ncount igroup ifirst (uinv : U) (conv : T -> U) ord thr numCores nrows low high out0,
  layout n keys src ncount igroup ifirst -> fair ord -> 0 <= low <= high -> high <= n -> n = Z.of_nat (length out0) ->
  exists res, GroupByAllPack32 ord thr false numCores nrows (xcall (AccumLast src igroup ifirst ncount uinv conv)) low high n out0 = Some res /\
    per_bin (last_spec uinv conv) low high keys src out0 res.
Proof. intros; now apply call_last. Qed.
Print Assumptions C16_last.

Example C16_layout : layout 4 ex_keys [10; 20; 30; 40; 50; 60] ex_ncount ex_igroup ex_ifirst.
Proof. apply ex_layout. reflexivity. Qed.
Example C16_values :
  GroupByAllPack32 (fun _ l => l) true false 2 6 (xcall (AccumNth [10; 20; 30; 40; 50; 60] ex_igroup ex_ifirst ex_ncount (-1) (fun x => x) (-2))) 0 4 4 [0; 0; 0; 0]
    = Some [-1; 30; 40; -1] /\
  GroupByAllPack32 (fun _ l => l) true false 2 6 (xcall (AccumFirst [10; 20; 30; 40; 50; 60] ex_igroup ex_ifirst ex_ncount (-1) (fun x => x))) 1 4 4 [7; 0; 0; 0]
    = Some [7; 10; 40; -1] /\
  GroupByAllPack32 (fun _ l => l) true false 2 6 (xcall (AccumLast [10; 20; 30; 40; 50; 60] ex_igroup ex_ifirst ex_ncount (-1) (fun x => x))) 0 4 4 [0; 0; 0; 0]
    = Some [20; 50; 60; -1].
Proof. vm_compute. auto. Qed.

(** ** C12.  Bands of groups run by the threads in any order give the sequential result. *)
(** any function that writes one value for its group *)
Theorem C12_bands :
  forall (U : Type) n ord (out0 : list U) (f : xfun) (F : Z -> U) cores,
  fair ord -> 0 < cores -> 0 <= n <= Z.of_nat (length out0) -> (forall g, 0 <= g < n -> f g = Some [(g, F g)]) ->
  BandedGroupBy ord (xcall f) cores n out0 = GroupByX (xcall f) 0 n out0.
Proof. exact (@final_band). Qed.
Print Assumptions C12_bands.

Theorem C12_median :
  forall (T U : Type) (lt eq : T -> T -> bool) (ok : T -> bool) (uinv : U) (conv : T -> U) n keys (src : list T) ncount igroup ifirst ord (out0 : list U) (qsort : list T -> list T) (split : T -> T -> option T) (mid : T -> T -> T) cores,
  (forall x, eq x x = ok x) -> sorts (length src) (compare_lt lt ok) qsort ->
  (forall a b, In a src -> In b src -> ok a = true -> ok b = true -> split a b = Some (mid a b)) ->
  layout n keys src ncount igroup ifirst -> fair ord -> 0 < cores -> n = Z.of_nat (length out0) ->
  BandedGroupBy ord (xcall (AccumMedian src igroup ifirst ncount uinv conv qsort eq split)) cores n out0 =
  GroupByX (xcall (AccumMedian src igroup ifirst ncount uinv conv qsort eq split)) 0 n out0.
Proof. intros; eapply final_band_median; eauto. Qed.
Print Assumptions C12_median.

Theorem C12_mode :
  forall (T U : Type) (lt eq : T -> T -> bool) (ok : T -> bool) (uinv : U) (conv : T -> U) n keys (src : list T) ncount igroup ifirst ord (out0 : list U) (qsort : list T -> list T) cores,
  (forall x, eq x x = ok x) -> sorts (length src) (compare_lt lt ok) qsort -> order_ok ok lt -> eq_ok ok lt eq ->
  layout n keys src ncount igroup ifirst -> fair ord -> 0 < cores -> n = Z.of_nat (length out0) ->
  BandedGroupBy ord (xcall (AccumMode src igroup ifirst ncount uinv conv qsort eq)) cores n out0 =
  GroupByX (xcall (AccumMode src igroup ifirst ncount uinv conv qsort eq)) 0 n out0.
Proof. intros; eapply final_band_mode; eauto. Qed.
Print Assumptions C12_mode.

Theorem C12_quantile :
  forall (T U : Type) (lt : T -> T -> bool) (ok : T -> bool) (uinv : U) (conv : T -> U) n keys (src : list T) ncount igroup ifirst ord (out0 : list U) (nthel : list T -> nat -> list T) (split : T -> T -> option U) (mid : T -> T -> U) nanq p cores,
  order_ok ok lt -> nth_elements lt ok nthel ->
  (forall a b, In a src -> In b src -> ok a = true -> ok b = true -> split a b = Some (mid a b)) ->
  0 <= p <= 10 ^ 9 -> Z.of_nat (length src) <= 2 ^ 53 ->
  layout n keys src ncount igroup ifirst -> fair ord -> 0 < cores -> n = Z.of_nat (length out0) ->
  BandedGroupBy ord (xcall (AccumQuantile1e9Mult src igroup ifirst ncount uinv conv ok lt nthel split nanq (q_down p) (q_up p))) cores n out0 =
  GroupByX (xcall (AccumQuantile1e9Mult src igroup ifirst ncount uinv conv ok lt nthel split nanq (q_down p) (q_up p))) 0 n out0.
Proof. intros; eapply final_band_quantile; eauto. Qed.
Print Assumptions C12_quantile.

Theorem C12_trimmean :
  forall (T U D : Type) (lt le : T -> T -> bool) (ok : T -> bool) (uinv : U) n keys (src : list T) ncount igroup ifirst ord (out0 : list U) (nthel : list T -> nat -> list T) ntrim (zero : D) (add : D -> T -> D) cast cores,
  order_ok ok lt -> le_ok ok lt le -> nth_elements lt ok nthel -> (forall d x y, add (add d x) y = add (add d y) x) ->
  (forall k, (0 < k)%nat -> (0 < ntrim k)%nat) ->
  layout n keys src ncount igroup ifirst -> fair ord -> 0 < cores -> n = Z.of_nat (length out0) ->
  BandedGroupBy ord (xcall (AccumTrimMeanBR src igroup ifirst ncount uinv ok le nthel ntrim zero add cast)) cores n out0 =
  GroupByX (xcall (AccumTrimMeanBR src igroup ifirst ncount uinv ok le nthel ntrim zero add cast)) 0 n out0.
Proof. intros; eapply final_band_trimmean; eauto. Qed.
Print Assumptions C12_trimmean.

(** three bands for four groups, the writes in reverse order *)
Example C12_example :
  fair (fun _ l => rev l) /\
  bands 3 4 = [(0, 2); (2, 3); (3, 4)] /\
  BandedGroupBy (fun _ l => rev l) (xcall (AccumMedian [Fin 5; NaN; Fin 9; Fin 1; Fin 2; Fin 4] ex_igroup ex_ifirst ex_ncount NaN (fun x => x)
     (quick (compare_lt flt fok)) feq (fun a b => Some (fadd a b)))) 3 4 [NaN; NaN; NaN; NaN] = Some [NaN; Fin 5; Fin 5; NaN].
Proof. split; [intros B l; apply Permutation_sym, Permutation_rev|]. vm_compute. auto. Qed.

(** ** C43.  The median of each group: sequentially, and threaded over bands of groups (more than 65536 rows).
    [eq] is ==, [lt] the order, [ok] the values equal to themselves; quicksort_ sorts (NaN last) and MEDIAN_SPLIT
    gives the midpoint of two values of the column.  Missing: integer sentinels are not skipped (C43_refuted), and
    the midpoint of large integers overflows or wraps (C43_overflow_refuted, C43_unsigned_refuted). *)
Theorem C43_median_partial :
  forall (T U : Type) (lt eq : T -> T -> bool) (ok : T -> bool) (uinv : U) (conv : T -> U) n keys (src : list T) ncount igroup ifirst ord thr numCores nrows low high (out0 : list U) (qsort : list T -> list T) (split : T -> T -> option T) (mid : T -> T -> T),
  (forall x, eq x x = ok x) -> sorts (length src) (compare_lt lt ok) qsort ->
  (forall a b, In a src -> In b src -> ok a = true -> ok b = true -> split a b = Some (mid a b)) ->
  layout n keys src ncount igroup ifirst -> fair ord -> 0 <= low <= high -> high <= n -> n = Z.of_nat (length out0) ->
  exists res seq,
    GroupByAllPack32 ord thr true numCores nrows (xcall (AccumMedian src igroup ifirst ncount uinv conv qsort eq split)) low high n out0 = Some res /\
    GroupByX (xcall (AccumMedian src igroup ifirst ncount uinv conv qsort eq split)) low high out0 = Some seq /\
    length res = length out0 /\ reduced (median_spec uinv conv lt ok mid) low high (combine keys src) res /\
    agree low high res seq /\ per_bin (median_spec uinv conv lt ok mid) low high keys src out0 seq.
Proof. intros; eapply final_median; eauto. Qed.
Print Assumptions C43_median_partial.

(** quicksort_ sorts *)
Theorem C43_quicksort_sorts :
  forall (T : Type) (lt : T -> T -> bool) (ok : T -> bool) n,
  order_ok ok lt -> (forall a b, lt a b = true -> ok a = true /\ ok b = true) -> Z.of_nat n < 2 ^ 63 ->
  sorts n (compare_lt lt ok) (quick (compare_lt lt ok)).
Proof. intros T lt ok n Ho Hv Hn. apply quick_sorts; auto. now apply compare_order. Qed.
Print Assumptions C43_quicksort_sorts.

(** doubles with a NaN, and integers, meet the hypotheses *)
Example C43_example :
  (forall x, feq x x = fok x) /\ sorts 6 (compare_lt flt fok) (quick (compare_lt flt fok)) /\
  (forall x, Z.eqb x x = true) /\ sorts 6 (compare_lt Z.ltb (fun _ => true)) (quick (compare_lt Z.ltb (fun _ => true))) /\
  (forall a b, In a [4; -7; 12] -> In b [4; -7; 12] -> MEDIAN_SPLIT_signed 32 a b = Some (Z.quot (a + b) 2)) /\
  GroupByAllPack32 (fun _ l => l) true true 2 6 (xcall (AccumMedian [Fin 5; NaN; Fin 9; Fin 1; Fin 2; NaN] ex_igroup ex_ifirst ex_ncount NaN (fun x => x)
     (quick (compare_lt flt fok)) feq (fun a b => Some (fadd a b)))) 0 4 4 [NaN; NaN; NaN; NaN] = Some [NaN; Fin 5; Fin 1; NaN].
Proof.
  split; [exact feq_fok|].
  split; [apply C43_quicksort_sorts; [apply Accum5Proofs.f_order|apply flt_valid|reflexivity]|]. split; [exact Z.eqb_refl|].
  split; [apply C43_quicksort_sorts; [apply z_order_all|auto|reflexivity]|]. split; [|vm_compute; reflexivity].
  intros a b Ha Hb. simpl in Ha, Hb. destruct Ha as [<-|[<-|[<-|[]]]], Hb as [<-|[<-|[<-|[]]]]; reflexivity.
Qed.

(** int32: the sentinel is sorted and counted as a value *)
Theorem C43_refuted :
  exists keys src ncount igroup ifirst res, layout 2 keys src ncount igroup ifirst /\
  GroupByAllPack32 (fun _ l => l) false true 1 3 (xcall (AccumMedian src igroup ifirst ncount (- 2 ^ 31) (fun x => x)
     (quick (compare_lt Z.ltb (fun _ => true))) Z.eqb (MEDIAN_SPLIT_signed 32))) 0 2 2 [0; 0] = Some res /\
  ~ reduced (median_spec (- 2 ^ 31) (fun x => x) Z.ltb ok32 (fun a b => (a + b) / 2)) 0 2 (combine keys src) res.
Proof. exact median_int_refuted. Qed.
Print Assumptions C43_refuted.

(** int32: the midpoint of two large values overflows *)
Theorem C43_overflow_refuted :
  exists src, GroupByAllPack32 (fun _ l => l) false true 1 2 (xcall (AccumMedian src (one_rows 2) [0; 0] [0; 2] (- 2 ^ 31) (fun x => x)
     (quick (compare_lt Z.ltb (fun _ => true))) Z.eqb (MEDIAN_SPLIT_signed 32))) 0 2 2 [0; 0] = None.
Proof. exact median_overflow. Qed.
Print Assumptions C43_overflow_refuted.

(** uint32: the median of two equal values is less than both by 2^31 *)
Theorem C43_unsigned_refuted :
  exists a, 0 <= a < 2 ^ 32 /\ GroupByAllPack32 (fun _ l => l) false true 1 2
   (xcall (AccumMedian [a; a] (one_rows 2) [0; 0] [0; 2] (2 ^ 32 - 1) (fun x => x)
     (quick (compare_lt Z.ltb (fun _ => true))) Z.eqb (MEDIAN_SPLIT_unsigned 32))) 0 2 2 [0; 0] = Some [2 ^ 32 - 1; a - 2 ^ 31].
Proof. exact median_unsigned. Qed.
Print Assumptions C43_unsigned_refuted.

(** ** C44.  A most frequent value, the smallest of them.  Missing: integer sentinels are counted as values
    (C44_refuted). *)
Theorem C44_mode_partial :
  forall (T U : Type) (lt eq : T -> T -> bool) (ok : T -> bool) (uinv : U) (conv : T -> U) n keys (src : list T) ncount igroup ifirst ord thr numCores nrows low high (out0 : list U) (qsort : list T -> list T),
  (forall x, eq x x = ok x) -> sorts (length src) (compare_lt lt ok) qsort -> order_ok ok lt -> eq_ok ok lt eq ->
  layout n keys src ncount igroup ifirst -> fair ord -> 0 <= low <= high -> high <= n -> n = Z.of_nat (length out0) ->
  exists res seq,
    GroupByAllPack32 ord thr true numCores nrows (xcall (AccumMode src igroup ifirst ncount uinv conv qsort eq)) low high n out0 = Some res /\
    GroupByX (xcall (AccumMode src igroup ifirst ncount uinv conv qsort eq)) low high out0 = Some seq /\
    length res = length out0 /\ reduced (mode_spec uinv conv lt eq ok) low high (combine keys src) res /\
    agree low high res seq /\ per_bin (mode_spec uinv conv lt eq ok) low high keys src out0 seq.
Proof. intros; eapply final_mode; eauto. Qed.
Print Assumptions C44_mode_partial.

Example C44_example :
  order_ok fok flt /\ eq_ok fok flt feq /\
  GroupByAllPack32 (fun _ l => l) true true 2 6 (xcall (AccumMode [Fin 5; NaN; Fin 2; Fin 1; Fin 5; NaN] ex_igroup ex_ifirst ex_ncount NaN (fun x => x)
     (quick (compare_lt flt fok)) feq)) 0 4 4 [NaN; NaN; NaN; NaN] = Some [NaN; Fin 5; Fin 1; NaN].
Proof. split; [exact Accum5Proofs.f_order|]. split; [exact f_eq_ok|]. vm_compute. reflexivity. Qed.

Theorem C44_refuted :
  exists keys src ncount igroup ifirst res, layout 2 keys src ncount igroup ifirst /\
  GroupByAllPack32 (fun _ l => l) false true 1 3 (xcall (AccumMode src igroup ifirst ncount (- 2 ^ 31) (fun x => x)
     (quick (compare_lt Z.ltb (fun _ => true))) Z.eqb)) 0 2 2 [0; 0] = Some res /\
  ~ reduced (mode_spec (- 2 ^ 31) (fun x => x) Z.ltb Z.eqb ok32) 0 2 (combine keys src) res.
Proof. exact mode_int_refuted. Qed.
Print Assumptions C44_refuted.

(** ** C45.  Quantile p / 10^9, with the indices the code computes in binary64 arithmetic; they are always positions
    of the group.  Missing: these indices differ from the exact ones for some p and n (C45_refuted). *)
Theorem C45_quantile_partial :
  forall (T U : Type) (lt : T -> T -> bool) (ok : T -> bool) (uinv : U) (conv : T -> U) n keys (src : list T) ncount igroup ifirst ord thr numCores nrows low high (out0 : list U) (nthel : list T -> nat -> list T) (split : T -> T -> option U) (mid : T -> T -> U) nanq p,
  order_ok ok lt -> nth_elements lt ok nthel ->
  (forall a b, In a src -> In b src -> ok a = true -> ok b = true -> split a b = Some (mid a b)) ->
  0 <= p <= 10 ^ 9 -> Z.of_nat (length src) <= 2 ^ 53 ->
  layout n keys src ncount igroup ifirst -> fair ord -> 0 <= low <= high -> high <= n -> n = Z.of_nat (length out0) ->
  exists res seq,
    GroupByAllPack32 ord thr true numCores nrows (xcall (AccumQuantile1e9Mult src igroup ifirst ncount uinv conv ok lt nthel split nanq (q_down p) (q_up p))) low high n out0 = Some res /\
    GroupByX (xcall (AccumQuantile1e9Mult src igroup ifirst ncount uinv conv ok lt nthel split nanq (q_down p) (q_up p))) low high out0 = Some seq /\
    length res = length out0 /\ reduced (quantile_spec uinv conv lt ok mid nanq (q_down p) (q_up p)) low high (combine keys src) res /\
    agree low high res seq /\ per_bin (quantile_spec uinv conv lt ok mid nanq (q_down p) (q_up p)) low high keys src out0 seq.
Proof. intros; eapply final_quantile; eauto. Qed.
Print Assumptions C45_quantile_partial.

Example C45_example :
  nth_elements flt fok (fun l _ => isort flt l) /\ q_down 500000000 4 = 1 /\ q_up 500000000 4 = 2 /\
  GroupByAllPack32 (fun _ l => l) true true 2 6 (xcall (AccumQuantile1e9Mult [Fin 5; NaN; Fin 9; Fin 1; Fin 2; Fin 4] ex_igroup ex_ifirst ex_ncount NaN (fun x => x)
     fok flt (fun l _ => isort flt l) (fun a b => Some (fadd a b)) true (q_down 500000000) (q_up 500000000))) 0 4 4 [NaN; NaN; NaN; NaN] = Some [NaN; Fin 5; Fin 5; NaN].
Proof. split; [apply isort_nthel, Accum5Proofs.f_order|]. vm_compute. auto. Qed.

(** int64, the result doubled: quantile 0.29 of 0 .. 100 is 28.5 *)
Theorem C45_refuted :
  exists src res,
  GroupByAllPack32 (fun _ l => l) false true 1 101 (xcall (AccumQuantile1e9Mult src (one_rows 101) [0; 0] [0; 101] (-1) (fun x => 2 * x)
     (fun _ => true) Z.ltb (fun l _ => isort Z.ltb l) (QUANTILE_SPLIT2_signed 64) false (q_down 290000000) (q_up 290000000))) 0 2 2 [0; 0] = Some res /\
  ~ reduced (quantile_spec (-1) (fun x => 2 * x) Z.ltb (fun _ => true) Z.add false (exact_down 290000000) (exact_up 290000000)) 0 2 (combine (one_keys 101) src) res.
Proof. exact quantile_refuted. Qed.
Print Assumptions C45_refuted.

(** int64: the sum of the two neighbours overflows *)
Theorem C45_overflow_refuted :
  exists src, GroupByAllPack32 (fun _ l => l) false true 1 2 (xcall (AccumQuantile1e9Mult src (one_rows 2) [0; 0] [0; 2] (-1) (fun x => 2 * x)
     (fun _ => true) Z.ltb (fun l _ => isort Z.ltb l) (QUANTILE_SPLIT2_signed 64) false (q_down 500000000) (q_up 500000000))) 0 2 2 [0; 0] = None.
Proof. exact quantile_overflow. Qed.
Print Assumptions C45_overflow_refuted.

(** ** C46.  The mean of the values between the two order statistics.  [add] is the addition of a value to the
    double sum; the theorem is about sums that do not depend on the order. *)
Theorem C46_trimmed_mean :
  forall (T U D : Type) (lt le : T -> T -> bool) (ok : T -> bool) (uinv : U) n keys (src : list T) ncount igroup ifirst ord thr numCores nrows low high (out0 : list U) (nthel : list T -> nat -> list T) ntrim (zero : D) (add : D -> T -> D) cast,
  order_ok ok lt -> le_ok ok lt le -> nth_elements lt ok nthel -> (forall d x y, add (add d x) y = add (add d y) x) ->
  (forall k, (0 < k)%nat -> (0 < ntrim k)%nat) ->
  layout n keys src ncount igroup ifirst -> fair ord -> 0 <= low <= high -> high <= n -> n = Z.of_nat (length out0) ->
  exists res seq,
    GroupByAllPack32 ord thr true numCores nrows (xcall (AccumTrimMeanBR src igroup ifirst ncount uinv ok le nthel ntrim zero add cast)) low high n out0 = Some res /\
    GroupByX (xcall (AccumTrimMeanBR src igroup ifirst ncount uinv ok le nthel ntrim zero add cast)) low high out0 = Some seq /\
    length res = length out0 /\ reduced (trimmean_spec uinv lt le ok ntrim zero add cast) low high (combine keys src) res /\
    agree low high res seq /\ per_bin (trimmean_spec uinv lt le ok ntrim zero add cast) low high keys src out0 seq.
Proof. intros; eapply final_trimmean; eauto. Qed.
Print Assumptions C46_trimmed_mean.

Example C46_example :
  le_ok fok flt fle /\ (forall d x y, fadd (fadd d x) y = fadd (fadd d y) x) /\
  GroupByAllPack32 (fun _ l => l) true true 2 6 (xcall (AccumTrimMeanBR [Fin 5; NaN; Fin 9; Fin 1; Fin 2; Fin 4] ex_igroup ex_ifirst ex_ncount NaN
     fok fle (fun l _ => isort flt l) (fun _ => 1%nat) (Fin 0) fadd (fun s c => match s with Fin z => Fin (z * 10 / c) | x => x end)))
     0 4 4 [NaN; NaN; NaN; NaN] = Some [NaN; Fin 53; NaN; NaN].
Proof. split; [exact f_le_ok|]. split; [exact f_add_swap|]. vm_compute. reflexivity. Qed.

(** ** C47.  Rolling sums and means within the groups, row numbers of [w] bits.  Group 0 is the invalid group.
    Missing: arithmetic in which subtracting does not undo adding (NaN, infinities and rounding: C47_nan_refuted),
    windows that overflow the row number type (C47_window_refuted), negative windows (C47_negative). *)
Theorem C47_sum_partial :
  forall (T U : Type) w n keys (src : list T) ncount igroup ifirst (uinv : U) (conv : T -> U) (zero : U) add sub win low high (out0 : list U),
  layout n keys src ncount igroup ifirst -> 0 < n -> 0 <= low <= high -> high <= n -> length out0 = length keys ->
  0 < w -> Z.of_nat (length keys) + Z.abs win < 2 ^ (w - 1) ->
  exact_add zero add -> exact_sub add sub -> 0 <= win ->
  exists res, GroupByX (AccumRollingSum w src igroup ifirst ncount uinv conv zero add sub win) low high out0 = Some res /\
    per_row uinv (rsum_spec conv zero add win) low high keys src out0 res.
Proof. intros; eapply call_rsum; eauto; first [exact (fun _ => true) | exact (fun x _ => x) | assumption]. Unshelve. all: first [exact (fun _ => true) | exact (fun x _ => x) | assumption]. Qed.
Print Assumptions C47_sum_partial.

Theorem C47_nansum_partial :
  forall (T U : Type) w n keys (src : list T) ncount igroup ifirst (uinv : U) (conv : T -> U) (zero : U) add sub (ok : T -> bool) win low high (out0 : list U),
  layout n keys src ncount igroup ifirst -> 0 < n -> 0 <= low <= high -> high <= n -> length out0 = length keys ->
  0 < w -> Z.of_nat (length keys) + Z.abs win < 2 ^ (w - 1) ->
  exact_add zero add -> exact_sub add sub -> 0 <= win ->
  exists res, GroupByX (AccumRollingNanSum w src igroup ifirst ncount uinv conv zero add sub ok win) low high out0 = Some res /\
    per_row uinv (rnansum_spec conv zero add ok win) low high keys src out0 res.
Proof. intros; eapply call_rnansum; eauto; first [exact (fun _ => true) | exact (fun x _ => x) | assumption]. Unshelve. all: first [exact (fun _ => true) | exact (fun x _ => x) | assumption]. Qed.
Print Assumptions C47_nansum_partial.

Theorem C47_mean_partial :
  forall (T U : Type) w n keys (src : list T) ncount igroup ifirst (uinv : U) (conv : T -> U) (zero : U) add sub div win low high (out0 : list U),
  layout n keys src ncount igroup ifirst -> 0 < n -> 0 <= low <= high -> high <= n -> length out0 = length keys ->
  0 < w -> Z.of_nat (length keys) + Z.abs win < 2 ^ (w - 1) ->
  exact_add zero add -> exact_sub add sub -> 0 <= win ->
  exists res, GroupByX (AccumRollingMean w src igroup ifirst ncount uinv conv zero add sub div win) low high out0 = Some res /\
    per_row uinv (rmean_spec conv zero add div win) low high keys src out0 res.
Proof. intros; eapply call_rmean; eauto; first [exact (fun _ => true) | exact (fun x _ => x) | assumption]. Unshelve. all: first [exact (fun _ => true) | exact (fun x _ => x) | assumption]. Qed.
Print Assumptions C47_mean_partial.

Theorem C47_nanmean_partial :
  forall (T U : Type) w n keys (src : list T) ncount igroup ifirst (uinv : U) (conv : T -> U) (zero : U) add sub div (ok : T -> bool) win low high (out0 : list U),
  layout n keys src ncount igroup ifirst -> 0 < n -> 0 <= low <= high -> high <= n -> length out0 = length keys ->
  0 < w -> Z.of_nat (length keys) + Z.abs win < 2 ^ (w - 1) ->
  exact_add zero add -> exact_sub add sub -> 0 <= win ->
  exists res, GroupByX (AccumRollingNanMean w src igroup ifirst ncount uinv conv zero add sub div ok win) low high out0 = Some res /\
    per_row uinv (rnanmean_spec uinv conv zero add div ok win) low high keys src out0 res.
Proof. intros; eapply call_rnanmean; eauto; first [exact (fun _ => true) | exact (fun x _ => x) | assumption]. Unshelve. all: first [exact (fun _ => true) | exact (fun x _ => x) | assumption]. Qed.
Print Assumptions C47_nanmean_partial.

(** integer arithmetic; also modulo 2^64 *)
Example C47_example :
  exact_add 0 Z.add /\ exact_sub Z.add Z.sub /\ exact_add 0 add64 /\
  GroupByX (AccumRollingSum 32 [10; 20; 30; 40; 50; 60] ex_igroup ex_ifirst ex_ncount (-1) (fun x => x) 0 Z.add Z.sub 2) 0 4 (repeat 0 6) = Some [10; -1; 40; 40; 80; 100].
Proof. split; [apply z_exact|]. split; [apply z_exact|]. split; [exact Accum5Proofs.add64_exact|]. vm_compute. reflexivity. Qed.

Theorem C47_nan_refuted :
  exists src res,
  GroupByX (AccumRollingSum 32 src (one_rows 4) [0; 0] [0; 4] NaN (fun x => x) (Fin 0) fadd fsub 2) 0 2 (repeat NaN 4) = Some res /\
  ~ per_row NaN (rsum_spec (fun x => x) (Fin 0) fadd 2) 0 2 (one_keys 4) src (repeat NaN 4) res.
Proof. exact rolling_nan_refuted. Qed.
Print Assumptions C47_nan_refuted.

(** int32 row numbers and a window of 2^31 - 1: reads outside iGroup *)
Theorem C47_window_refuted :
  exists (src : list Z), layout 4 ex_keys src ex_ncount ex_igroup ex_ifirst /\
  GroupByX (AccumRollingSum 32 src ex_igroup ex_ifirst ex_ncount 0 (fun x => x) 0 Z.add Z.sub (2 ^ 31 - 1)) 0 4 (repeat 0 6) = None.
Proof. exact rolling_window_overflow. Qed.
Print Assumptions C47_window_refuted.

(** a negative window writes only the rows of group 0: the others keep what was in the (uninitialised) output *)
Theorem C47_negative :
  forall (T U : Type) w n keys (src : list T) ncount igroup ifirst (uinv : U) (conv : T -> U) (zero : U) add sub win low high (out0 : list U),
  layout n keys src ncount igroup ifirst -> 0 < n -> 0 <= low -> length out0 = length keys -> win < 0 ->
  exists res, GroupByX (AccumRollingSum w src igroup ifirst ncount uinv conv zero add sub win) low high out0 = Some res /\
    length res = length out0 /\ forall g k r, nth_error (rows_with keys g) k = Some r ->
      nth_error res (Z.to_nat r) = if (low =? 0) && (g =? 0) then Some uinv else nth_error out0 (Z.to_nat r).
Proof. exact (@rolling_negative). Qed.
Print Assumptions C47_negative.

(** ** C48.  Rolling count, shift and difference within the groups, for positive and negative windows.  Missing:
    windows that overflow the row number type (C48_window_refuted). *)
Theorem C48_count :
  forall (T U : Type) w n keys (src : list T) ncount igroup ifirst (uinv : U) (conv : T -> U) cnt win low high (out0 : list U),
  layout n keys src ncount igroup ifirst -> 0 < n -> 0 <= low <= high -> high <= n -> length out0 = length keys ->
  0 < w -> Z.of_nat (length keys) + Z.abs win < 2 ^ (w - 1) ->
  exists res, GroupByX (AccumRollingCount igroup ifirst ncount uinv cnt win) low high out0 = Some res /\
    per_row uinv (rcount_spec cnt win) low high keys src out0 res.
Proof. intros; eapply call_rcount; eauto; first [exact (fun _ => true) | exact (fun x _ => x) | assumption]. Unshelve. all: first [exact (fun _ => true) | exact (fun x _ => x) | assumption]. Qed.
Print Assumptions C48_count.

Theorem C48_shift_partial :
  forall (T U : Type) w n keys (src : list T) ncount igroup ifirst (uinv : U) (conv : T -> U)  win low high (out0 : list U),
  layout n keys src ncount igroup ifirst -> 0 < n -> 0 <= low <= high -> high <= n -> length out0 = length keys ->
  0 < w -> Z.of_nat (length keys) + Z.abs win < 2 ^ (w - 1) ->
  exists res, GroupByX (AccumRollingShift w src igroup ifirst ncount uinv conv win) low high out0 = Some res /\
    per_row uinv (rshift_spec uinv conv win) low high keys src out0 res.
Proof. intros; eapply call_rshift; eauto; first [exact (fun _ => true) | exact (fun x _ => x) | assumption]. Unshelve. all: first [exact (fun _ => true) | exact (fun x _ => x) | assumption]. Qed.
Print Assumptions C48_shift_partial.

Theorem C48_diff_partial :
  forall (T U : Type) w n keys (src : list T) ncount igroup ifirst (uinv : U) (conv : T -> U) sub win low high (out0 : list U),
  layout n keys src ncount igroup ifirst -> 0 < n -> 0 <= low <= high -> high <= n -> length out0 = length keys ->
  0 < w -> Z.of_nat (length keys) + Z.abs win < 2 ^ (w - 1) ->
  exists res, GroupByX (AccumRollingDiff w src igroup ifirst ncount uinv conv sub win) low high out0 = Some res /\
    per_row uinv (rdiff_spec uinv conv sub win) low high keys src out0 res.
Proof. intros; eapply call_rdiff; eauto; first [exact (fun _ => true) | exact (fun x _ => x) | assumption]. Unshelve. all: first [exact (fun _ => true) | exact (fun x _ => x) | assumption]. Qed.
Print Assumptions C48_diff_partial.

Example C48_example :
  GroupByX (AccumRollingShift 32 [10; 20; 30; 40; 50; 60] ex_igroup ex_ifirst ex_ncount (-1) (fun x => x) (-1)) 0 4 (repeat 0 6) = Some [30; -1; 50; 60; -1; -1] /\
  GroupByX (AccumRollingDiff 32 [10; 20; 30; 40; 50; 60] ex_igroup ex_ifirst ex_ncount (-1) (fun x => x) Z.sub 1) 0 4 (repeat 0 6) = Some [-1; -1; 20; -1; 20; 20] /\
  GroupByX (AccumRollingDiff 32 [10; 20; 30; 40; 50; 60] ex_igroup ex_ifirst ex_ncount (-1) (fun x => x) Z.sub 2) 0 4 (repeat 0 6) = Some [-1; -1; -1; -1; 40; -1] /\
  GroupByX (AccumRollingCount ex_igroup ex_ifirst ex_ncount (-1) (fun x => x) (-1)) 0 4 (repeat 0 6) = Some [2; -1; 1; 1; 0; 0].
Proof. vm_compute. auto. Qed.

Theorem C48_window_refuted :
  exists (src : list Z), layout 4 ex_keys src ex_ncount ex_igroup ex_ifirst /\
  GroupByX (AccumRollingShift 32 src ex_igroup ex_ifirst ex_ncount 0 (fun x => x) (2 ^ 31 - 1)) 0 4 (repeat 0 6) = None.
Proof. exact shift_window_overflow. Qed.
Print Assumptions C48_window_refuted.
