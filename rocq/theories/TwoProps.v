(** C80: an operation on two operands works on the numbers that it was given. *)
From Coq Require Import Reals SpecFloat.
From Flocq Require Import Core BinarySingleNaN.
From Verif Require Import Base Mem ConvModel ConvSpec ConvProofs TwoModel TwoSpec Two2Proofs.
Local Open Scope Z_scope.

(** An array of integers and a Python integer: both are held by one integer type, in either order. *)
Theorem C80_int_scalar_partial cmp t d xs z :
  0 <= t <= 10 -> of_num t = Some d -> scalar_fits t z -> Forall (typed d) xs -> typed d (VI z) \/ Forall (plain d) xs ->
  (exists p, CheckInputs cmp false (Arr t xs) (Sca (PyInt z)) = Some p /\ same_integers p Second xs [VI z])
  /\ (exists p, CheckInputs cmp false (Sca (PyInt z)) (Arr t xs) = Some p /\ same_integers p First [VI z] xs).
Proof. intros B E F T P. split; [exact (int_scalar_second cmp t d xs z B E F T P) | exact (int_scalar_first cmp t d xs z B E F T P)]. Qed.
Print Assumptions C80_int_scalar_partial.

Example C80_int_scalar_example : exists p, CheckInputs false false (Arr 2 [VI 7; VI 254]) (Sca (PyInt (-3))) = Some p /\ same_integers p Second [VI 7; VI 254] [VI (-3)].
Proof.
  apply (C80_int_scalar_partial false 2 U8); try reflexivity; try lia.
  - right; right; right. unfold unsigned. cbn. lia.
  - repeat constructor; cbn; lia.
  - right. repeat constructor; cbn; try lia; discriminate.
Qed.

(** Two arrays of integers of the same length, unless one is uint64 and the other signed. *)
Theorem C80_int_arrays_partial cmp t1 t2 d1 d2 xs ys :
  0 <= t1 <= 10 -> 0 <= t2 <= 10 -> of_num t1 = Some d1 -> of_num t2 = Some d2 ->
  ~ (long_unsigned t1 /\ signed t2) -> ~ (signed t1 /\ long_unsigned t2) ->
  length xs = length ys -> Forall (typed d1) xs -> Forall (typed d2) ys ->
  d1 = d2 \/ Forall (plain d1) xs /\ Forall (plain d2) ys ->
  exists p, CheckInputs cmp false (Arr t1 xs) (Arr t2 ys) = Some p /\ same_integers p NoScalars xs ys.
Proof. exact (int_arrays cmp t1 t2 d1 d2 xs ys). Qed.
Print Assumptions C80_int_arrays_partial.

Example C80_int_arrays_example : exists p, CheckInputs true false (Arr 6 [VI 4000000000]) (Arr 1 [VI (-5)]) = Some p /\ same_integers p NoScalars [VI 4000000000] [VI (-5)].
Proof.
  apply (C80_int_arrays_partial true 6 1 U32 I8); try reflexivity; try lia.
  - unfold long_unsigned, signed. cbn. lia.
  - unfold long_unsigned, signed. cbn. lia.
  - repeat constructor; cbn; lia.
  - repeat constructor; cbn; lia.
  - right. split; repeat constructor; cbn; try lia; discriminate.
Qed.

(** An array with one item in the place of a scalar. *)
Theorem C80_one_item_partial cmp t1 t2 d1 d2 x ys :
  0 <= t1 <= 10 -> 0 <= t2 <= 10 -> of_num t1 = Some d1 -> of_num t2 = Some d2 ->
  ~ (long_unsigned t1 /\ signed t2) -> ~ (signed t1 /\ long_unsigned t2) ->
  (1 < length ys)%nat -> typed d1 (VI x) -> - 2 ^ 63 <= x < 2 ^ 63 -> Forall (plain d2) ys ->
  (exists p, CheckInputs cmp false (Arr t1 [VI x]) (Arr t2 ys) = Some p /\ same_integers p First [VI x] ys)
  /\ (exists p, CheckInputs cmp false (Arr t2 ys) (Arr t1 [VI x]) = Some p /\ same_integers p Second ys [VI x]).
Proof.
  intros B1 B2 E1 E2 N1 N2 L T R P. split; [exact (one_item_first cmp t1 t2 d1 d2 x ys B1 B2 E1 E2 N1 N2 L T R P)|].
  apply (one_item_second cmp t2 t1 d2 d1 ys x); auto; tauto.
Qed.
Print Assumptions C80_one_item_partial.

Example C80_one_item_example : exists p, CheckInputs true false (Arr 3 [VI 300]) (Arr 2 [VI 5; VI 6]) = Some p /\ same_integers p First [VI 300] [VI 5; VI 6].
Proof.
  apply (C80_one_item_partial true 3 2 I16 U8); try reflexivity; try lia.
  - unfold long_unsigned, signed. cbn. lia.
  - unfold long_unsigned, signed. cbn. lia.
  - cbn. lia.
  - cbn. lia.
  - repeat constructor; cbn; try lia; discriminate.
Qed.

(** Arrays of which at least one holds floats: the numbers are kept if the common float type has them. *)
Theorem C80_float_arrays_partial cmp t1 t2 d1 d2 xs ys :
  0 <= t1 <= 12 -> 0 <= t2 <= 12 -> 11 <= t1 \/ 11 <= t2 -> of_num t1 = Some d1 -> of_num t2 = Some d2 ->
  length xs = length ys -> Forall (fits d1 (float_type t1 t2)) xs -> Forall (fits d2 (float_type t1 t2)) ys ->
  exists p, CheckInputs cmp false (Arr t1 xs) (Arr t2 ys) = Some p /\ same_numbers p NoScalars (float_type t1 t2) xs ys.
Proof. exact (mixed_arrays cmp t1 t2 d1 d2 xs ys). Qed.
Print Assumptions C80_float_arrays_partial.

Example C80_float_arrays_example : exists p, CheckInputs false false (Arr 7 [VI 3]) (Arr 12 [VF (S754_zero false)]) = Some p /\ same_numbers p NoScalars F64 [VI 3] [VF (S754_zero false)].
Proof.
  apply (C80_float_arrays_partial false 7 12 I64 F64); try reflexivity; try lia; repeat constructor; cbn; try lia; try discriminate.
  - exists 3%R. split; [reflexivity|]. apply (int_representable F64 3); [reflexivity|cbn; lia].
  - exists 0%R. split; [now split|]. exists (VF (S754_zero false)). now split; split.
Qed.

(** Arrays of the same type are used as they are. *)
Theorem C80_same_type cmp out t xs ys : length xs = length ys -> CheckInputs cmp out (Arr t xs) (Arr t ys) = Some (Prep NoScalars t t xs ys).
Proof. intros L. cbn [CheckInputs]. rewrite L, Nat.eqb_refl. unfold CheckUpcast. now rewrite Z.eqb_refl. Qed.
Print Assumptions C80_same_type.

(** An array and a Python float. *)
Theorem C80_float_scalar_partial cmp t d xs f :
  0 <= t <= 12 -> of_num t = Some d -> typed F64 (VF f) ->
  Forall (fits d (float_type t (if t =? 11 then t else 12))) xs ->
  (exists r, denotes (VF f) r /\ representable (float_type t (if t =? 11 then t else 12)) r) ->
  exists p, CheckInputs cmp false (Arr t xs) (Sca (PyFloat f)) = Some p /\ same_numbers p Second (float_type t (if t =? 11 then t else 12)) xs [VF f].
Proof. exact (float_scalar_second cmp t d xs f). Qed.
Print Assumptions C80_float_scalar_partial.

Example C80_float_scalar_example : exists p, CheckInputs false false (Arr 5 [VI 3]) (Sca (PyFloat (S754_zero false))) = Some p /\ same_numbers p Second F64 [VI 3] [VF (S754_zero false)].
Proof.
  apply (C80_float_scalar_partial false 5 I32); try reflexivity; try lia; repeat constructor; cbn; try lia; try discriminate.
  - exists 3%R. split; [reflexivity|]. apply (int_representable F64 3); [reflexivity|cbn; lia].
  - exists 0%R. split; [now split|]. exists (VF (S754_zero false)). now split; split.
Qed.

(** A negative integer whose absolute value needs 8, 16 or 32 bits wraps with an unsigned array: uint8 [100] and -200. *)
Theorem C80_negative_refuted : exists z, CheckInputs false false (Arr 2 [VI 100]) (Sca (PyInt z)) = Some (Prep Second 2 2 [VI 100] [VI 56]) /\ z = -200.
Proof. exists (-200). split; reflexivity. Qed.
Print Assumptions C80_negative_refuted.

(** An int64 array and the Python integer 2^63: the scalar becomes -1.0. *)
Theorem C80_overflow_refuted : exists f, CheckInputs false false (Arr 7 []) (Sca (PyInt (2 ^ 63))) = Some (Prep Second 12 12 [] [VF f])
  /\ SF2R radix2 f = IZR (-1).
Proof. eexists. split; [vm_compute; reflexivity|]. cbn. unfold F2R. cbn. field. Qed.
Print Assumptions C80_overflow_refuted.

(** A uint64 array and 2^64 + 5: the scalar becomes 5. *)
Theorem C80_mod_refuted : exists z, CheckInputs false false (Arr 8 [VI 1]) (Sca (PyInt z)) = Some (Prep Second 8 8 [VI 1] [VI 5]) /\ z = 2 ^ 64 + 5.
Proof. exists (2 ^ 64 + 5). split; reflexivity. Qed.
Print Assumptions C80_mod_refuted.

(** A uint64 array and -1: the array is converted to float32 and 16777217 becomes 16777216. *)
Theorem C80_float32_refuted : exists f g, CheckInputs false false (Arr 8 [VI 16777217]) (Sca (PyInt (-1))) = Some (Prep Second 11 11 [VF f] [VF g])
  /\ SF2R radix2 f = IZR 16777216.
Proof. eexists. eexists. split; [vm_compute; reflexivity|]. cbn. unfold F2R. cbn. field. Qed.
Print Assumptions C80_float32_refuted.

(** A one-item uint64 array with 2^63 and a float64 array: the item becomes -2^63. *)
Theorem C80_one_item_refuted : exists f ys, CheckInputs false false (Arr 8 [VI (2 ^ 63)]) (Arr 12 ys) = Some (Prep First 12 12 [VF f] ys)
  /\ SF2R radix2 f = IZR (- 2 ^ 63).
Proof. eexists. exists [VF (S754_zero false); VF (S754_zero false)]. split; [vm_compute; reflexivity|]. cbn. unfold F2R. cbn. field. Qed.
Print Assumptions C80_one_item_refuted.

(** An int32 array and a float32 array are compared and added in float32. *)
Theorem C80_precision_refuted : exists f, CheckInputs false false (Arr 5 [VI 16777217]) (Arr 11 [VF (S754_zero false)]) = Some (Prep NoScalars 11 11 [VF f] [VF (S754_zero false)])
  /\ SF2R radix2 f = IZR 16777216.
Proof. eexists. split; [vm_compute; reflexivity|]. cbn. unfold F2R. cbn. field. Qed.
Print Assumptions C80_precision_refuted.

(** The invalid value of a type is replaced by that of the common type: uint8 255 becomes -32768 beside int16. *)
Theorem C80_invalid_refuted : exists p, CheckInputs false false (Arr 2 [VI 255]) (Arr 3 [VI 0]) = Some p /\ in1 p = [VI (-32768)].
Proof. eexists. split; reflexivity. Qed.
Print Assumptions C80_invalid_refuted.

(** With an output array the scalar is cut to the type of the array: int8 and 300. *)
Theorem C80_out_refuted : exists p, CheckInputs false true (Arr 1 [VI 1]) (Sca (PyInt 300)) = Some p /\ in2 p = [VI 44].
Proof. eexists. split; reflexivity. Qed.
Print Assumptions C80_out_refuted.
