(** C84, C85, C86: operations on one array, for every alignment, stride, length and division among threads. *)
From Coq Require Import Reals SpecFloat.
From Flocq Require Import Core BinarySingleNaN.
From Verif Require Import Base Mem ConvModel ConvSpec ConvProofs TwoModel TwoSpec CmpModel CmpSpec MathModel MathSpec UnaryModel UnarySpec UnaryProofs Unary2Proofs.
Local Open Scope Z_scope.

(** * C84: the result at each position is the result for the item there *)

(** Floats: exact, except that SQRT is rounded to the nearest, and halves and the sign of a zero result are left open. *)
Theorem C84_floats_partial lib o d bs : is_float d = true -> float1 o = true -> Forall (typed d) (items bs) ->
  each (ProcessOneInput lib o d bs) bs d (float_result o d).
Proof. exact (floats_ok lib o d bs). Qed.
Print Assumptions C84_floats_partial.

Example C84_floats_example : each (ProcessOneInput no_library FLOOR F64 [block_of true (repeat (VF two_and_half) 5)]) [block_of true (repeat (VF two_and_half) 5)] F64 (float_result FLOOR F64).
Proof. apply C84_floats_partial; try reflexivity. repeat (apply Forall_cons; [split; reflexivity|]). apply Forall_nil. Qed.

(** Integers: modulo 2^bits. *)
Theorem C84_integers lib o d bs g : int1 d o = Some g -> Forall (typed d) (items bs) ->
  each (ProcessOneInput lib o d bs) bs d (fun x y => forall z, x = VI z -> residue d (g z) y).
Proof. exact (ints_ok lib o d bs g). Qed.
Print Assumptions C84_integers.

Example C84_integers_example : each (ProcessOneInput no_library ABS I16 [block_of false [VI (-7)]; block_of true (map VI (repeat 3 17))])
  [block_of false [VI (-7)]; block_of true (map VI (repeat 3 17))] I16 (fun x y => forall z, x = VI z -> residue I16 (Z.abs z) y).
Proof. apply C84_integers; [reflexivity|]. repeat (apply Forall_cons; [split; [reflexivity|cbn; lia]|]). apply Forall_nil. Qed.

(** The invalid value of a signed type stays invalid under ABS and NEG. *)
Theorem C84_invalid_partial lib o d bs : In o [ABS; NEG; NEGATIVE] -> is_signed d = true -> Forall (typed d) (items bs) ->
  each (ProcessOneInput lib o d bs) bs d (fun x y => invalid d = Some x -> y = x).
Proof. exact (int_invalid lib o d bs). Qed.
Print Assumptions C84_invalid_partial.

Example C84_invalid_example : each (ProcessOneInput no_library NEG I8 [block_of true [VI (-128); VI 3]]) [block_of true [VI (-128); VI 3]] I8 (fun x y => invalid I8 = Some x -> y = x).
Proof. apply C84_invalid_partial; [cbn; tauto|reflexivity|]. repeat (apply Forall_cons; [split; [reflexivity|cbn; lia]|]). apply Forall_nil. Qed.

(** round(2.5) is 2 in an aligned array and 3 in another *)
Theorem C84_round_refuted : exists l, ProcessOneInput no_library ROUND F64 [block_of true l] <> ProcessOneInput no_library ROUND F64 [block_of false l].
Proof. exists (repeat (VF two_and_half) 4). vm_compute. discriminate. Qed.
Print Assumptions C84_round_refuted.

(** within one array: five items 2.5 give 2, 2, 2, 2, 3 *)
Theorem C84_round_position_refuted : exists x ys y y', ProcessOneInput no_library ROUND F64 [block_of true (repeat x 5)] = Some (F64, ys)
  /\ nth_error ys 0 = Some y /\ nth_error ys 4 = Some y' /\ denotes y 2 /\ denotes y' 3.
Proof.
  exists (VF two_and_half). eexists; eexists; eexists. split; [vm_compute; reflexivity|]. split; [reflexivity|]. split; [reflexivity|].
  split; (split; [reflexivity|]); cbn; unfold F2R; cbn; field.
Qed.
Print Assumptions C84_round_position_refuted.

(** -(0.0) is 0.0 in an aligned array and -0.0 in another *)
Theorem C84_zero_refuted : exists ys ys', ProcessOneInput no_library NEG F64 [block_of true (repeat (VF (S754_zero false)) 4)] = Some (F64, ys)
  /\ ProcessOneInput no_library NEG F64 [block_of false (repeat (VF (S754_zero false)) 4)] = Some (F64, ys')
  /\ ys = repeat (VF (S754_zero false)) 4 /\ ys' = repeat (VF (S754_zero true)) 4.
Proof. eexists; eexists. split; [vm_compute; reflexivity|]. split; [vm_compute; reflexivity|]. split; reflexivity. Qed.
Print Assumptions C84_zero_refuted.

(** the sign of the invalid integer is -1, and ~ of it is the largest integer *)
Theorem C84_invalid_refuted : exists x, invalid I32 = Some x /\ ProcessOneInput no_library SIGN I32 [block_of true [x]] = Some (I32, [VI (-1)])
  /\ ProcessOneInput no_library INVERT I32 [block_of true [x]] = Some (I32, [VI 2147483647]).
Proof. eexists. split; [reflexivity|]. split; vm_compute; reflexivity. Qed.
Print Assumptions C84_invalid_refuted.

(** * C85: the tests *)

Theorem C85_tests lib o d bs : (forall x, test1 o d x <> None) -> Forall (typed d) (items bs) ->
  each (ProcessOneInput lib o d bs) bs Bool (fun x y => forall P, test1 o d x = Some P -> answer1 P y).
Proof. exact (tests_ok lib o d bs). Qed.
Print Assumptions C85_tests.

Example C85_tests_example : each (ProcessOneInput no_library ISFINITE F32 [block_of true (repeat (VF S754_nan) 8 ++ [VF (S754_zero true)])])
  [block_of true (repeat (VF S754_nan) 8 ++ [VF (S754_zero true)])] Bool (fun x y => forall P, test1 ISFINITE F32 x = Some P -> answer1 P y).
Proof. apply C85_tests; [discriminate|]. repeat (apply Forall_cons; [split; reflexivity|]). apply Forall_nil. Qed.

(** Strings: an item whose first character is a NUL is missing; for characters below 256. *)
Theorem C85_strings_partial c l : 0 <= c < 256 -> (STRING_ISINVALID (c :: l) = true <-> c = 0) /\ (STRING_ISINVALID (ucs4 c ++ l) = true <-> c = 0).
Proof. intros B. cbn. rewrite Z.mod_small by assumption. rewrite Z.eqb_eq. tauto. Qed.
Print Assumptions C85_strings_partial.

Example C85_strings_example : (STRING_ISINVALID (ucs4 65 ++ ucs4 0) = true <-> 65 = 0).
Proof. apply C85_strings_partial. lia. Qed.

(** the unicode string with the one character U+0100 counts as empty *)
Theorem C85_unicode_refuted : exists c, c <> 0 /\ STRING_ISINVALID (ucs4 c ++ ucs4 0) = true.
Proof. exists 256. split; [discriminate|reflexivity]. Qed.
Print Assumptions C85_unicode_refuted.

(** * C86: functions of the C library *)

(** Integers: the function of the nearest double; for uint64 below 2^63. *)
Theorem C86_integers_partial lib o d bs : doubles o = true -> In d [I32; U32; I64; U64] -> Forall (typed d) (items bs) ->
  each (ProcessOneInput lib o d bs) bs F64
    (fun x y => forall z, x = VI z -> (d = U64 -> z < 2 ^ 63) -> exists f, denotes (VF f) (nearest F64 (IZR z)) /\ typed F64 (VF f) /\ y = VF (library_of lib o f)).
Proof. exact (doubles_ok lib o d bs). Qed.
Print Assumptions C86_integers_partial.

Example C86_integers_example : each (ProcessOneInput no_library LOG U64 [block_of true [VI 10]]) [block_of true [VI 10]] F64
    (fun x y => forall z, x = VI z -> (U64 = U64 -> z < 2 ^ 63) -> exists f, denotes (VF f) (nearest F64 (IZR z)) /\ typed F64 (VF f) /\ y = VF (library_of no_library LOG f)).
Proof. apply C86_integers_partial; [reflexivity|cbn; tauto|]. repeat (apply Forall_cons; [split; [reflexivity|cbn; lia]|]). apply Forall_nil. Qed.

Theorem C86_sqrt_partial lib d bs : In d [I32; U32; I64; U64] -> Forall (typed d) (items bs) ->
  each (ProcessOneInput lib SQRT d bs) bs F64
    (fun x y => forall z, x = VI z -> 0 <= z < 2 ^ 63 -> typed F64 y /\ denotes y (nearest F64 (sqrt (nearest F64 (IZR z))))).
Proof. exact (sqrt_ints_ok lib d bs). Qed.
Print Assumptions C86_sqrt_partial.

Example C86_sqrt_example : each (ProcessOneInput no_library SQRT I32 [block_of true [VI 10]]) [block_of true [VI 10]] F64
    (fun x y => forall z, x = VI z -> 0 <= z < 2 ^ 63 -> typed F64 y /\ denotes y (nearest F64 (sqrt (nearest F64 (IZR z))))).
Proof. apply C86_sqrt_partial; [cbn; tauto|]. repeat (apply Forall_cons; [split; [reflexivity|cbn; lia]|]). apply Forall_nil. Qed.

(** Floats. *)
Theorem C86_floats lib o d bs : In o [LOG; LOG10; EXP; EXP2] -> is_float d = true -> Forall (typed d) (items bs) ->
  each (ProcessOneInput lib o d bs) bs d (fun x y => exists f, x = VF f /\ y = VF (lib o d f)).
Proof. exact (library_floats lib o d bs). Qed.
Print Assumptions C86_floats.

Example C86_floats_example : each (ProcessOneInput no_library EXP F80 [block_of true [VF (S754_zero true)]]) [block_of true [VF (S754_zero true)]] F80
  (fun x y => exists f, x = VF f /\ y = VF (no_library EXP F80 f)).
Proof. apply C86_floats; [cbn; tauto|reflexivity|]. repeat (apply Forall_cons; [split; reflexivity|]). apply Forall_nil. Qed.

(** the square root of the uint64 item 2^63 is NaN *)
Theorem C86_uint64_refuted : exists z, 0 <= z < 2 ^ 64 /\ ProcessOneInput no_library SQRT U64 [block_of true [VI z]] = Some (F64, [VF S754_nan]).
Proof. exists (2 ^ 63). split; [lia|]. vm_compute. reflexivity. Qed.
Print Assumptions C86_uint64_refuted.

(** the square root of the invalid value of uint32 is a number *)
Theorem C86_invalid_refuted : exists x y r, invalid U32 = Some x /\ ProcessOneInput no_library SQRT U32 [block_of true [x]] = Some (F64, [y]) /\ denotes y r.
Proof. eexists; eexists; eexists. split; [reflexivity|]. split; [vm_compute; reflexivity|]. split; reflexivity. Qed.
Print Assumptions C86_invalid_refuted.
