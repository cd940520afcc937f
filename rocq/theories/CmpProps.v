(** C78: comparisons of two operands, under any schedule of the worker threads. *)
From Coq Require Import Reals SpecFloat.
From Flocq Require Import Core BinarySingleNaN.
From Verif Require Import Base Mem MemLemmas ConvModel ConvSpec TwoModel TwoSpec CmpModel CmpSpec Cmp2Proofs.
Local Open Scope Z_scope.

(** Arrays of integers of any two types: the comparison of the integers, but for == and != of uint64 and int64. *)
Theorem C78_integers_partial ord thr o t1 t2 d1 d2 xs ys garbage :
  fair ord -> 0 <= t1 <= 10 -> 0 <= t2 <= 10 -> of_num t1 = Some d1 -> of_num t2 = Some d2 ->
  length xs = length ys -> Forall (typed d1) (map VI xs) -> Forall (typed d2) (map VI ys) ->
  d1 = d2 \/ Forall (plain d1) (map VI xs) /\ Forall (plain d2) (map VI ys) ->
  ~ (long_unsigned t1 /\ long_signed t2 /\ (o = EQ \/ o = NE)) -> length garbage = length xs ->
  answers (Compare ord thr o (Arr t1 (map VI xs)) (Arr t2 (map VI ys)) garbage) (length xs) (fun i => rel o (nth i xs 0 ?= nth i ys 0)).
Proof. exact (cmp_int_arrays ord thr o t1 t2 d1 d2 xs ys garbage). Qed.
Print Assumptions C78_integers_partial.

Example C78_integers_example : answers (Compare in_order false LT (Arr 7 (map VI [-1])) (Arr 8 (map VI [18446744073709551614])) [5]) 1 (fun i => rel LT (nth i [-1] 0 ?= nth i [18446744073709551614] 0)).
Proof.
  apply (C78_integers_partial in_order false LT 7 8 I64 U64); try reflexivity; try lia.
  - intros B l. apply Permutation_refl.
  - repeat constructor; cbn; lia.
  - repeat constructor; cbn; lia.
  - right. split; repeat constructor; cbn; try lia; discriminate.
  - unfold long_unsigned. cbn. lia.
Qed.

(** An array of integers and a Python integer, in either order. *)
Theorem C78_scalar_partial ord thr o t d xs z garbage :
  fair ord -> 0 <= t <= 10 -> of_num t = Some d -> scalar_fits t z -> Forall (typed d) (map VI xs) ->
  typed d (VI z) \/ Forall (plain d) (map VI xs) -> length garbage = length xs ->
  answers (Compare ord thr o (Arr t (map VI xs)) (Sca (PyInt z)) garbage) (length xs) (fun i => rel o (nth i xs 0 ?= z))
  /\ answers (Compare ord thr o (Sca (PyInt z)) (Arr t (map VI xs)) garbage) (length xs) (fun i => rel o (z ?= nth i xs 0)).
Proof. exact (cmp_scalar ord thr o t d xs z garbage). Qed.
Print Assumptions C78_scalar_partial.

Example C78_scalar_example : answers (Compare in_order false GE (Arr 1 (map VI [-128; 5])) (Sca (PyInt 4)) [7; 7]) 2 (fun i => rel GE (nth i [-128; 5] 0 ?= 4)).
Proof.
  apply (C78_scalar_partial in_order false GE 1 I8); try reflexivity; try lia.
  - intros B l. apply Permutation_refl.
  - left. unfold signed. cbn. lia.
  - repeat constructor; cbn; lia.
  - left. split; [reflexivity|cbn; lia].
Qed.

(** An array of integers and an array with one integer, in either order. *)
Theorem C78_one_item_partial ord thr o t1 t2 d1 d2 x ys garbage :
  fair ord -> 0 <= t1 <= 10 -> 0 <= t2 <= 10 -> of_num t1 = Some d1 -> of_num t2 = Some d2 ->
  ~ (long_unsigned t1 /\ signed t2) -> ~ (signed t1 /\ long_unsigned t2) -> (1 < length ys)%nat ->
  typed d1 (VI x) -> - 2 ^ 63 <= x < 2 ^ 63 -> Forall (plain d2) (map VI ys) -> length garbage = length ys ->
  answers (Compare ord thr o (Arr t1 [VI x]) (Arr t2 (map VI ys)) garbage) (length ys) (fun i => rel o (x ?= nth i ys 0))
  /\ answers (Compare ord thr o (Arr t2 (map VI ys)) (Arr t1 [VI x]) garbage) (length ys) (fun i => rel o (nth i ys 0 ?= x)).
Proof. exact (cmp_one_item ord thr o t1 t2 d1 d2 x ys garbage). Qed.
Print Assumptions C78_one_item_partial.

Example C78_one_item_example : answers (Compare in_order false NE (Arr 5 [VI 7]) (Arr 2 (map VI [7; 8])) [3; 3]) 2 (fun i => rel NE (7 ?= nth i [7; 8] 0)).
Proof.
  apply (C78_one_item_partial in_order false NE 5 2 I32 U8); try reflexivity; try lia.
  - intros B l. apply Permutation_refl.
  - unfold long_unsigned. cbn. lia.
  - unfold long_unsigned. cbn. lia.
  - cbn. lia.
  - cbn. lia.
  - repeat constructor; cbn; try lia; discriminate.
Qed.

(** Arrays of the same float type, with NaNs and infinities: the comparison of IEEE 754. *)
Theorem C78_floats ord thr o t d xs ys garbage :
  fair ord -> 11 <= t <= 12 -> of_num t = Some d -> length xs = length ys ->
  Forall (typed d) (map VF xs) -> Forall (typed d) (map VF ys) -> length garbage = length xs ->
  answers (Compare ord thr o (Arr t (map VF xs)) (Arr t (map VF ys)) garbage) (length xs) (fun i => ieee o (nth i xs S754_nan) (nth i ys S754_nan)).
Proof. exact (cmp_floats ord thr o t d xs ys garbage). Qed.
Print Assumptions C78_floats.

Example C78_floats_example : answers (Compare in_order true NE (Arr 12 (map VF [S754_nan])) (Arr 12 (map VF [S754_nan])) [3]) 1 (fun i => ieee NE (nth i [S754_nan] S754_nan) (nth i [S754_nan] S754_nan)).
Proof.
  apply (C78_floats in_order true NE 12 F64); try reflexivity; try lia; try (repeat constructor). intros B l. apply Permutation_refl.
Qed.

(** Arrays of which at least one holds floats: the comparison of the real numbers, if the common float type has them. *)
Theorem C78_mixed_partial ord thr o t1 t2 d1 d2 xs ys rs ss garbage :
  fair ord -> 0 <= t1 <= 12 -> 0 <= t2 <= 12 -> 11 <= t1 \/ 11 <= t2 -> of_num t1 = Some d1 -> of_num t2 = Some d2 ->
  length xs = length ys -> Forall (fits d1 (float_type t1 t2)) xs -> Forall (fits d2 (float_type t1 t2)) ys ->
  Forall2 denotes xs rs -> Forall2 denotes ys ss -> length garbage = length xs ->
  answers (Compare ord thr o (Arr t1 xs) (Arr t2 ys) garbage) (length xs) (fun i => rel o (Rcompare (nth i rs 0%R) (nth i ss 0%R))).
Proof. exact (cmp_mixed ord thr o t1 t2 d1 d2 xs ys rs ss garbage). Qed.
Print Assumptions C78_mixed_partial.

Example C78_mixed_example : answers (Compare in_order false LE (Arr 3 [VI 3]) (Arr 11 [VF (S754_zero false)]) [9]) 1 (fun i => rel LE (Rcompare (nth i [3%R] 0%R) (nth i [0%R] 0%R))).
Proof.
  apply (C78_mixed_partial in_order false LE 3 11 I16 F32); try reflexivity; try lia; repeat constructor; cbn; try lia; try discriminate.
  - intros B l. apply Permutation_refl.
  - exists 3%R. split; [reflexivity|]. exists (VF (S754_finite false 12582912 (-22))). split; [now split|]. split; [reflexivity|]. cbn. unfold F2R. cbn. field.
  - exists 0%R. split; [now split|]. exists (VF (S754_zero false)). now split; split.
Qed.

(** == of uint64 and int64 compares the bits: 18446744073709551615 == -1 is True. *)
Theorem C78_bits_refuted : exists x y, x <> y /\ Compare in_order false EQ (Arr 8 [VI x]) (Arr 7 [VI y]) [0] = Done [1].
Proof. exists 18446744073709551615, (-1). split; [lia|]. vm_compute. reflexivity. Qed.
Print Assumptions C78_bits_refuted.

(** An int64 array with one item before a uint64 array: -1 > 5 is True. *)
Theorem C78_first_refuted : exists x y, x < y /\ Compare in_order false GT (Arr 7 [VI x]) (Arr 8 [VI y; VI y]) [0; 0] = Done [1; 1].
Proof. exists (-1), 5. split; [lia|]. vm_compute. reflexivity. Qed.
Print Assumptions C78_first_refuted.

(** A uint64 array and a Python integer below -2^31: 5 < -1099511627776 is True. *)
Theorem C78_negative_refuted : exists x z, z < x /\ Compare in_order false LT (Arr 8 [VI x]) (Sca (PyInt z)) [0] = Done [1].
Proof. exists 5, (- 2 ^ 40). split; [lia|]. vm_compute. reflexivity. Qed.
Print Assumptions C78_negative_refuted.

(** A uint8 array and -200: 56 == -200 is True. *)
Theorem C78_small_refuted : exists x z, x <> z /\ Compare in_order false EQ (Arr 2 [VI x]) (Sca (PyInt z)) [0] = Done [1].
Proof. exists 56, (-200). split; [lia|]. vm_compute. reflexivity. Qed.
Print Assumptions C78_small_refuted.

(** An int64 array and 2^63: -1 == 2^63 is True. *)
Theorem C78_overflow_refuted : exists x z, x <> z /\ Compare in_order false EQ (Arr 7 [VI x]) (Sca (PyInt z)) [0] = Done [1].
Proof. exists (-1), (2 ^ 63). split; [lia|]. vm_compute. reflexivity. Qed.
Print Assumptions C78_overflow_refuted.

(** Invalid values compare as those of the common type: uint8 255 < int16 0 is True. *)
Theorem C78_invalid_refuted : exists x y, y < x /\ Compare in_order false LT (Arr 2 [VI x]) (Arr 3 [VI y]) [0] = Done [1].
Proof. exists 255, 0. split; [lia|]. vm_compute. reflexivity. Qed.
Print Assumptions C78_invalid_refuted.

(** int64 and float64: 2^53 + 1 == 2^53 is True. *)
Theorem C78_precision_refuted : exists x f, SF2R radix2 f = IZR (2 ^ 53) /\ x = 2 ^ 53 + 1 /\ Compare in_order false EQ (Arr 7 [VI x]) (Arr 12 [VF f]) [0] = Done [1].
Proof. exists (2 ^ 53 + 1), (S754_finite false 4503599627370496 1). split; [cbn; unfold F2R; cbn; rewrite <- mult_IZR; reflexivity|]. split; [reflexivity|]. vm_compute. reflexivity. Qed.
Print Assumptions C78_precision_refuted.
