(** C105: TimeWindow.  C106: Rolling. *)
From Coq Require Import Reals.
From Verif Require Import Base Mem AccumSpec AllModel AllSpec All4Proofs EaModel EaSpec EaProofs WnModel WnSpec WnProofs Wn3Proofs.
From Verif Require CalcSpec HeapSpec.
Local Open Scope Z_scope.

(** ** C105 *)
(** TimeWindow(values, times, func, delta): each row gets the sum (0) or product (1) of the rows up to it whose times are no more than delta before its
    own, whatever the order in which the threads take the blocks.  For arrays without gaps, and times that ascend and are less than 2^63 apart. *)
Theorem C105_window_partial : forall {F} (A : arith F) ord threads (a : arg (num F)) (t : arg Z) func delta,
  fair ord -> numbers a -> gapless a -> times_given (a_len a) t -> gapless t -> CalcSpec.sorted_times (arg_vals 0 t) -> CalcSpec.close_times (arg_vals 0 t) ->
  In func [0; 1] -> - 2 ^ 63 <= delta < 2 ^ 63 ->
  exists out, TimeWindow A ord threads a t func delta = Done (Some (time_dtype (a_dtype a), out)) /\
    every_row (time_row A func (a_dtype a) (arg_vals (I 0) a) (arg_vals 0 t) delta) (a_len a) out.
Proof. intros. now apply time_window_right. Qed.
Print Assumptions C105_window_partial.
Example C105_window_ex : TimeW (int_arg 1 [5; 6; 7; 8]) [10; 20; 21; 40] 0 5 = Done (Some (7, map I [5; 6; 13; 8])) /\
  TimeW (int_arg 2 [5; 6; 7; 8]) [10; 20; 21; 40] 1 11 = Done (Some (8, map I [5; 30; 210; 8])) /\ members [10; 20; 21; 40] 11 2 = [0; 1; 2]%nat /\
  TimeW (float_arg 12 [Some 5; None; Some 7]) [10; 20; 40] 0 15 = Done (Some (12, map R [Some 5; None; Some 7])) /\
  numbers (F := option Z) (int_arg 1 [5; 6; 7; 8]) /\ CalcSpec.sorted_times [10; 20; 21; 40].
Proof.
  split; [vm_compute; reflexivity|]. split; [vm_compute; reflexivity|]. split; [vm_compute; reflexivity|]. split; [vm_compute; reflexivity|]. split.
  - split; [cbn; lia|]. split; [cbn; lia|]. split; [split; [reflexivity|split; [cbn; lia|cbn; intros; lia]]|]. unfold elements_ok. change (arg_vals (I 0) (int_arg 1 [5; 6; 7; 8])) with (map (@I (option Z)) [5; 6; 7; 8]). exists [5; 6; 7; 8]. split; [reflexivity|repeat constructor; lia].
  - intros i j x y Hij Hx Hy. destruct i as [|[|[|[|i]]]], j as [|[|[|[|j]]]]; cbn in Hx, Hy; try lia; try (destruct i; discriminate); try (destruct j; discriminate); injection Hx as <-; injection Hy as <-; lia.
Qed.

(** What is refused: a function or delta that is no int64, arrays of two lengths, times that are not int64. *)
Theorem C105_refused : forall {F} (A : arith F) ord threads (a : arg (num F)) (t : arg Z) func delta,
  ~ (- 2 ^ 63 <= func < 2 ^ 63) \/ ~ (- 2 ^ 63 <= delta < 2 ^ 63) \/ a_len a <> a_len t \/ ~ In (a_dtype t) [7; 9] -> TimeWindow A ord threads a t func delta = Error.
Proof. intros. now apply window_refused. Qed.
Print Assumptions C105_refused.
Example C105_refused_ex : TimeW (int_arg 1 [5; 6]) [10] 0 5 = Error /\ WnModel.TimeWindow whole in_order true (int_arg 1 [5]) (mkArg 5 [1] 0 1 1) 0 5 = Error.
Proof. split; vm_compute; reflexivity. Qed.

(** None is returned for any other function and for arrays that are not of numbers. *)
Theorem C105_none : forall {F} (A : arith F) ord threads (a : arg (num F)) (t : arg Z) func delta,
  - 2 ^ 63 <= func < 2 ^ 63 -> - 2 ^ 63 <= delta < 2 ^ 63 -> a_len t = a_len a -> In (a_dtype t) [7; 9] -> ~ In func [0; 1] \/ ~ 0 <= a_dtype a <= 13 ->
  TimeWindow A ord threads a t func delta = Done None.
Proof. intros. now apply window_none. Qed.
Print Assumptions C105_none.
Example C105_none_ex : TimeW (int_arg 1 [5]) [10] 2 5 = Done None /\ TimeW (int_arg 18 [5]) [10] 0 5 = Done None.
Proof. split; vm_compute; reflexivity. Qed.

(** Arrays with gaps between their elements are read as if there were none: values[::2] of 1 9 2, and times[::2] of 0 100 1. *)
Theorem C105_strided_refuted :
  (exists a : arg (num (option Z)), numbers a /\ arg_vals (I 0) a = map I [1; 2] /\ TimeW a [0; 1] 0 5 = Done (Some (7, map I [1; 10])) /\
     ~ time_row whole 0 1 (map I [1; 2]) [0; 1] 5 1 (I 10)) /\
  (exists t, times_given 2 t /\ arg_vals 0 t = [0; 1] /\ WnModel.TimeWindow whole in_order true (int_arg 1 [1; 2]) t 0 5 = Done (Some (7, map I [1; 2])) /\
     ~ time_row whole 0 1 (map I [1; 2]) [0; 1] 5 1 (I 2)).
Proof.
  assert (G : forall z, time_row whole 0 1 (map I [1; 2]) [0; 1] 5 1 (I z) -> (z - 3) mod 2 ^ 64 = 0).
  { intros z (zs & y & E & Ez & H). injection Ez as <-. change (map I [1; 2] = map (@I (option Z)) zs) in E. destruct zs as [|p [|q [|? ?]]]; try discriminate E. injection E as <- <-.
    destruct H as ((q & Hq) & _). cbn [fold_right] in Hq. replace (z - 3) with (q * 2 ^ 64) by lia. apply Z_mod_mult. }
  split.
  - exists (mkArg 1 (map I [1; 10 - 1; 2]) 0 2 2). split; [split; [cbn; lia|]; split; [cbn; lia|]; split; [split; [reflexivity|split; [cbn; lia|cbn; intros; lia]]|]|].
    + unfold elements_ok. match goal with |- context [arg_vals ?z ?a] => change (arg_vals z a) with (map (@I (option Z)) [1; 2]) end. exists [1; 2]. split; [reflexivity|repeat constructor; lia].
    + split; [reflexivity|]. split; [vm_compute; reflexivity|]. intros H. apply G in H. discriminate H.
  - exists (mkArg 7 [0; 100; 1] 0 2 2). split; [split; [cbn; auto|split; [reflexivity|split; [cbn; lia|cbn; intros; lia]]]|]. split; [reflexivity|]. split; [vm_compute; reflexivity|]. intros H. apply G in H. discriminate H.
Qed.
Print Assumptions C105_strided_refuted.

(** Times that are 2^63 or more apart: their difference overflows. *)
Theorem C105_overflow_refuted : exists t, CalcSpec.sorted_times t /\ TimeW (int_arg 1 [1; 2]) t 0 5 = Undefined.
Proof. exists [- 2 ^ 63; 2 ^ 62]. split; [|vm_compute; reflexivity]. intros i j x y Hij Hx Hy. destruct i as [|[|i]], j as [|[|j]]; cbn in Hx, Hy; try lia; try (destruct i; discriminate); try (destruct j; discriminate); injection Hx as <-; injection Hy as <-; lia. Qed.
Print Assumptions C105_overflow_refuted.

(** ** C106 *)
(** Rolling(values, func, window): each row gets the sum (0), sum of the valid (1), mean (102) or mean of the valid (103) of the last window rows up to
    it, whatever the gaps of the array.  If adding and taking away again is exact, and the functions that do not look for invalid values get none. *)
Theorem C106_sums_partial : forall {F} (A : arith F) variance over (a : arg (num F)) func win,
  arith_ok A -> numbers a -> In func rolling -> 0 <= win < 2 ^ 63 -> exact_on A (format (a_dtype a)) -> plain_values A func (a_dtype a) (arg_vals (I 0) a) ->
  exists out, Rolling A variance over a func win = Done (Some (rolling_dtype func (a_dtype a), out)) /\
    every_row (rolling_row A func (a_dtype a) win (arg_vals (I 0) a)) (a_len a) out.
Proof. intros. now apply rolling_right. Qed.
Print Assumptions C106_sums_partial.
Lemma whole_exact U : exact_on whole U.
Proof.
  split; [reflexivity|]. split.
  - intros [a|] [b|] Ha Hb; try discriminate. cbn. split; [reflexivity|]. split; f_equal; lia.
  - intros [a|] [b|] [c|] Ha Hb Hc; try discriminate. cbn. f_equal. lia.
Qed.
Example C106_sums_ex : arith_ok whole /\ (forall U, exact_on whole U) /\
  RollW (mkArg 2 (map I [5; 0; 6; 0; 255; 0; 8]) 0 2 4) 0 2 = Done (Some (7, map I [5; 11; 261; 263])) /\ RollW (int_arg 2 [5; 6; 255; 8]) 1 2 = Done (Some (7, map I [5; 11; 6; 8])) /\
  RollW (float_arg 12 [Some 4; Some 6; None; Some 8]) 1 2 = Done (Some (12, map R [Some 4; Some 10; Some 6; Some 8])) /\
  RollW (int_arg 5 [4; 6; 8]) 102 2 = Done (Some (12, map R [Some 4; Some 5; Some 7])) /\ RollW (float_arg 11 [Some 4; Some 6; None]) 103 2 = Done (Some (11, map R [Some 4; Some 5; Some 6])).
Proof.
  split; [exact whole_ok|]. split; [exact whole_exact|]. split; [vm_compute; reflexivity|]. split; [vm_compute; reflexivity|]. split; [vm_compute; reflexivity|]. split; vm_compute; reflexivity.
Qed.

(** Rolling(values, 104, k + window * (10^9 + 1)): the quantile k / 10^9 of the valid values of the window. *)
Theorem C106_quantile_partial : forall {F} (A : arith F) variance over (a : arg (num F)) k win,
  arith_ok A -> numbers a -> 0 <= k <= 10 ^ 9 -> 0 < win -> k + win * (10 ^ 9 + 1) < 2 ^ 63 -> (forall n, (0 < n <= Z.to_nat win)%nat -> HeapSpec.clear_index k n) ->
  no_overflow (a_dtype a) (arg_vals (I 0) a) ->
  exists out, Rolling A variance over a 104 (k + win * (10 ^ 9 + 1)) = Done (Some (rolling_dtype 104 (a_dtype a), out)) /\
    every_row (quantile_rows A k (a_dtype a) win (arg_vals (I 0) a)) (a_len a) out.
Proof. intros. now apply quantile_right. Qed.
Print Assumptions C106_quantile_partial.
Example C106_quantile_ex : RollW (int_arg 1 [4; 8; -128; 6; 20]) 104 (0 + 3 * (10 ^ 9 + 1)) = Done (Some (12, map R [Some 4; Some 4; Some 4; Some 6; Some 6])).
Proof. vm_compute. reflexivity. Qed.

(** What is refused: a function or window that is no int64, a quantile of a window of no row. *)
Theorem C106_refused : forall {F} (A : arith F) variance over (a : arg (num F)),
  (forall func win, ~ (- 2 ^ 63 <= func < 2 ^ 63) \/ ~ (- 2 ^ 63 <= win < 2 ^ 63) -> Rolling A variance over a func win = Error) /\
  (forall win, numbers a -> - 2 ^ 63 <= win < 10 ^ 9 + 1 -> Rolling A variance over a 104 win = Error).
Proof. intros. split; intros; [now apply rolling_refused|now apply quantile_refused]. Qed.
Print Assumptions C106_refused.
Example C106_refused_ex : RollW (int_arg 1 [4]) 0 (2 ^ 63) = Error /\ RollW (int_arg 1 [4]) 104 (10 ^ 9) = Error.
Proof. split; vm_compute; reflexivity. Qed.

(** None is returned for any other function and for arrays that are not of numbers. *)
Theorem C106_none : forall {F} (A : arith F) variance over (a : arg (num F)) func win,
  - 2 ^ 63 <= func < 2 ^ 63 -> - 2 ^ 63 <= win < 2 ^ 63 -> ~ In func [0; 1; 102; 103; 104; 106; 107; 108; 109] \/ ~ 0 <= a_dtype a <= 13 ->
  Rolling A variance over a func win = Done None.
Proof. intros. now apply rolling_none. Qed.
Print Assumptions C106_none.
Example C106_none_ex : RollW (int_arg 1 [4]) 2 3 = Done None /\ RollW (int_arg 14 [4]) 102 3 = Done None.
Proof. split; vm_compute; reflexivity. Qed.

(** A negative window: memory before the arrays is read and written. *)
Theorem C106_negative_refuted : exists (a : arg (num (option Z))) win, numbers a /\ RollW a 0 win = Undefined.
Proof.
  exists (int_arg 1 [4]), (-1). split; [|vm_compute; reflexivity]. split; [cbn; lia|]. split; [cbn; lia|]. split; [split; [reflexivity|split; [cbn; lia|cbn; intros; lia]]|].
  unfold elements_ok. change (arg_vals (I 0) (int_arg 1 [4])) with (map (@I (option Z)) [4]). exists [4]. split; [reflexivity|repeat constructor; lia].
Qed.
Print Assumptions C106_negative_refuted.

(** A NaN stays in the sum after it has left the window: the last row sums 5 and 6. *)
Theorem C106_nan_refuted : exists a r, arg_vals (I 0) a = map R [None; Some 5; Some 6] /\ RollW a 0 2 = Done (Some (12, map R [None; None; r])) /\ r <> Some 11.
Proof. exists (float_arg 12 [None; Some 5; Some 6]), None. split; [reflexivity|]. split; [vm_compute; reflexivity|discriminate]. Qed.
Print Assumptions C106_nan_refuted.

(** The mean of the valid values of integers counts the invalid one: -128 and 4 give -62. *)
Theorem C106_nanmean_refuted : exists a r, arg_vals (I 0) a = map I [-128; 4] /\ valid_of whole (a_dtype a) (I (-128)) = false /\
  RollW a 103 2 = Done (Some (12, map R [Some (-128); r])) /\ r <> Some 4.
Proof. exists (int_arg 1 [-128; 4]), (Some (-62)). split; [reflexivity|]. split; [reflexivity|]. split; [vm_compute; reflexivity|discriminate]. Qed.
Print Assumptions C106_nanmean_refuted.

(** The midpoint of two int32 whose sum is no int32 (77 stands for what the program gives). *)
Theorem C106_midpoint_refuted : exists a, arg_vals (I 0) a = map I [2 ^ 31 - 1; 2 ^ 31 - 3] /\
  RollW a 104 (500000000 + 2 * (10 ^ 9 + 1)) = Done (Some (12, [R (Some (2 ^ 31 - 1)); I 77])).
Proof. exists (int_arg 5 [2 ^ 31 - 1; 2 ^ 31 - 3]). split; [reflexivity|vm_compute; reflexivity]. Qed.
Print Assumptions C106_midpoint_refuted.
