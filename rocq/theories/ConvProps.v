(** C26: conversion between number types. C58: joining arrays of different types. C59: PutMask. *)
From Coq Require Import Reals SpecFloat.
From Flocq Require Import Core BinarySingleNaN.
From Verif Require Import Base Mem MemLemmas Par ConvModel ConvSpec ConvProofs.
Local Open Scope Z_scope.

(** ** C26 *)

(** Every valid value is converted to the same number if the destination has it: all pairs of types, integers and floating point. *)
Theorem C26_numbers : forall t u, keeps_numbers convert_safe t u.
Proof. exact convert_safe_keeps. Qed.
Print Assumptions C26_numbers.
Theorem C26_invalid : forall t u, keeps_invalid convert_safe t u.
Proof. exact convert_safe_invalid. Qed.
Print Assumptions C26_invalid.
Theorem C26_cast_numbers : forall t u, keeps_numbers cast_nan_aware t u.
Proof. exact cast_nan_aware_keeps. Qed.
Print Assumptions C26_cast_numbers.
Theorem C26_cast_invalid : forall t u, keeps_invalid cast_nan_aware t u.
Proof. intros t u x y H1 H2. rewrite (cast_nan_aware_invalid t u x H1). rewrite <- H2. symmetry. apply invalid_default. intros ->. discriminate. Qed.
Print Assumptions C26_cast_invalid.
(** ConvertUnsafe keeps every number, but knows nothing of invalid values *)
Theorem C26_unsafe_numbers : forall t u x r, typed t x -> denotes x r -> representable u r ->
  exists y, convert_unsafe t u x = Some y /\ typed u y /\ denotes y r.
Proof. exact convert_unsafe_keeps. Qed.
Print Assumptions C26_unsafe_numbers.
(** An integer that the floating point type does not have is rounded to the nearest, ties to even. *)
Theorem C26_nearest : forall t u z, is_float t = false -> is_float u = true -> typed t (VI z) -> invalid t <> Some (VI z) ->
  exists f, convert_safe t u (VI z) = Some (VF f) /\ typed u (VF f) /\ denotes (VF f) (nearest u (IZR z)).
Proof. exact convert_nearest. Qed.
Print Assumptions C26_nearest.
(** A finite number is truncated; outside the range of the integer type the cast is undefined. *)
Theorem C26_truncate : forall t u f, is_float t = true -> is_float u = false -> u <> Bool -> typed t (VF f) -> is_finite_SF f = true ->
  convert_safe t u (VF f) =
    (if (lo u <=? Ztrunc (SF2R radix2 f)) && (Ztrunc (SF2R radix2 f) <=? hi u) then Some (VI (Ztrunc (SF2R radix2 f))) else None).
Proof. exact convert_trunc. Qed.
Print Assumptions C26_truncate.
(** Infinities and NaN become the invalid integer. *)
Theorem C26_not_finite : forall t u f, is_float t = true -> is_float u = false -> u <> Bool -> is_finite_SF f = false ->
  convert_safe t u (VF f) = invalid u.
Proof. exact convert_not_finite. Qed.
Print Assumptions C26_not_finite.
(** There and back again: an integer type that is included in another one, invalid values included. *)
Theorem C26_roundtrip : forall t u x, is_float t = false -> t <> Bool -> u <> Bool -> includes u t -> typed t x ->
  exists y, convert_safe t u x = Some y /\ convert_safe u t y = Some x.
Proof. exact roundtrip. Qed.
Print Assumptions C26_roundtrip.
(** which types are included in which *)
Theorem C26_includes : forall t u, is_float t = false -> t <> Bool -> u <> Bool -> holds_integers t u = true ->
  (invalid u = invalid t \/ (forall b, invalid u = Some (VI b) -> ~ (lo t <= b <= hi t))) -> includes u t.
Proof. exact holds_includes. Qed.
Print Assumptions C26_includes.

Example C26_example :
  convert_safe I8 I64 (VI (-128)) = Some (VI (-9223372036854775808)) /\ convert_safe I8 I64 (VI (-127)) = Some (VI (-127)) /\
  convert_safe U64 I16 (VI 18446744073709551615) = Some (VI (-32768)) /\ convert_safe I32 F64 (VI (-2147483648)) = Some (VF S754_nan) /\
  convert_safe I64 F64 (VI 9007199254740993) = Some (VF (S754_finite false 4503599627370496 1)) /\
  convert_safe F32 I16 (VF (S754_finite true 14155776 (-22))) = Some (VI (-3)) /\
  convert_safe F64 I32 (VF (S754_infinity true)) = Some (VI (-2147483648)) /\
  convert_safe F64 F32 (VF (S754_infinity true)) = Some (VF (S754_infinity true)).
Proof. repeat split. Qed.
Example C26_includes_example : includes I16 I8 /\ includes U64 U32 /\ includes F64 I32 /\ includes F80 I64 /\ includes I16 U8 /\ includes F80 U64.
Proof. repeat match goal with |- _ /\ _ => split end; try (apply (C26_includes); try reflexivity; try discriminate; right; simpl; intros b Hb; try discriminate; injection Hb as <-; unfold lo, hi; simpl; lia); auto. Qed.

(** What the conversion does not do. An invalid value becomes True. *)
Theorem C26_invalid_bool_refuted : forall t x, invalid t = Some x -> convert_safe t Bool x = Some (VI 1).
Proof. intros t x. destruct t; simpl; intros [= <-]; reflexivity. Qed.
Print Assumptions C26_invalid_bool_refuted.
(** A valid number becomes the invalid value of the destination. *)
Theorem C26_becomes_invalid_refuted : exists t u x y, typed t x /\ invalid t <> Some x /\ convert_safe t u x = Some y /\ invalid u = Some y.
Proof. exists I16, U8, (VI 255), (VI 255). repeat split; unfold lo, hi; simpl; try lia; discriminate. Qed.
Print Assumptions C26_becomes_invalid_refuted.
(** An infinity becomes NaN in a conversion from or to long double. *)
Theorem C26_infinity_refuted : exists t u, is_float t = true /\ is_float u = true /\
  convert_safe t u (VF (S754_infinity false)) = Some (VF S754_nan) /\ convert_safe u t (VF (S754_infinity false)) = Some (VF S754_nan).
Proof. exists F64, F80. repeat split. Qed.
Print Assumptions C26_infinity_refuted.

(** ** C58 *)

(** HStack: the items of the arrays in order, each converted. Every order of the writes; the result does not depend on what the output held. *)
Theorem C58_hstack : forall ord u arrs garbage, fair ord -> length garbage = length (concat (map snd arrs)) ->
  HStack ord u arrs garbage = all_some (concat (map (fun a => map (convert_safe (fst a) u) (snd a)) arrs)).
Proof. exact HStack_ok. Qed.
Print Assumptions C58_hstack.
Example C58_hstack_example :
  HStack in_order I32 [(I8, [VI 1; VI (-128)]); (U16, [VI 65535; VI 65534]); (F32, [VF S754_nan]); (I32, [VI 5])] (repeat (VI 77) 6) =
    Some [VI 1; VI (-2147483648); VI (-2147483648); VI 65534; VI (-2147483648); VI 5].
Proof. vm_compute. reflexivity. Qed.

(** Homogenize: the same conversion, except for bool. *)
Theorem C58_homogenize_partial : forall u arrs, (forall t xs, In (t, xs) arrs -> t <> Bool) ->
  HomogenizeArrays u arrs = all_some (map (fun a => all_some (map (convert_safe (fst a) u) (snd a))) arrs).
Proof.
  intros u arrs H. unfold HomogenizeArrays. f_equal. apply map_ext_in. intros [t xs] I. simpl. f_equal. apply map_ext. intros x.
  apply homogenize_safe. eapply H; eauto.
Qed.
Print Assumptions C58_homogenize_partial.
(** False becomes the invalid value *)
Theorem C58_homogenize_refuted : exists u xs ys, HomogenizeArrays u [(Bool, xs)] = Some [ys] /\ (exists i, nth_error xs i = Some (VI 0) /\ nth_error ys i = invalid u).
Proof. exists I32, [VI 1; VI 0], [VI 1; VI (-2147483648)]. split; [reflexivity|]. exists 1%nat. split; reflexivity. Qed.
Print Assumptions C58_homogenize_refuted.

(** The common type holds every integer of each of the types, and keeps the precision of floating point types,
    except for 64-bit integers with a floating point result, and ULONG with LONGLONG. *)
Theorem C58_upcast_partial : forall types t, (forall t, In t types -> 0 <= t <= 13) -> In t types ->
  exists a b, of_num t = Some a /\ of_num (GetUpcastDtype types) = Some b /\
  (holds_integers a b = true \/ (bits a = 64 /\ is_float a = false /\ is_float b = true) \/ (t = 8 /\ GetUpcastDtype types = 9)).
Proof.
  intros types t H I. pose proof (upcast_ok types t H I) as G. unfold up_good in G.
  destruct (of_num t) as [a|]; [|discriminate]. destruct (of_num (GetUpcastDtype types)) as [b|]; [|discriminate].
  exists a, b. split; auto. split; auto. apply orb_true_iff in G as [G|G].
  - apply orb_true_iff in G as [G|G]; auto. apply andb_true_iff in G as [G1 G2]. apply andb_true_iff in G1 as [G0 G1].
    right; left. apply negb_true_iff in G1. apply Z.eqb_eq in G0. auto.
  - apply andb_true_iff in G as [G1 G2]. apply Z.eqb_eq in G1, G2. auto.
Qed.
Print Assumptions C58_upcast_partial.
Example C58_upcast_example : GetUpcastDtype [1; 2] = 3 /\ GetUpcastDtype [6; 5] = 7 /\ GetUpcastDtype [11; 5] = 12 /\ GetUpcastDtype [0; 0] = 0 /\
  GetUpcastDtype [7; 13] = 13 /\ GetUpcastDtype [7; 4; 0] = 7.
Proof. repeat split. Qed.
(** bool with uint64 gives double, which does not have every uint64; int64 would not be needed *)
Theorem C58_upcast_double_refuted : exists types z y, GetUpcastDtype types = 12 /\ In 8 types /\ (forall t, In t types -> t = 0 \/ t = 8) /\
  typed U64 (VI z) /\ convert_safe U64 F64 (VI z) = Some y /\ ~ denotes y (IZR z).
Proof.
  exists [0; 8], 9007199254740993, (VF (S754_finite false 4503599627370496 1)). split; [reflexivity|]. split; [simpl; auto|]. split; [simpl; intuition|].
  split; [split; [reflexivity|unfold lo, hi; simpl; lia]|]. split; [vm_compute; reflexivity|].
  intros [_ D]. unfold SF2R, F2R in D. simpl in D. change (4503599627370496 * 2)%R with (IZR 4503599627370496 * IZR 2)%R in D. rewrite <- mult_IZR in D. apply eq_IZR in D. discriminate.
Qed.
Print Assumptions C58_upcast_double_refuted.
(** ULONG (8) with LONGLONG (9) gives int64: large numbers become negative *)
Theorem C58_upcast_wrap_refuted : exists types z y, GetUpcastDtype types = 9 /\ In 8 types /\ of_num 8 = Some U64 /\ of_num 9 = Some I64 /\
  typed U64 (VI z) /\ invalid U64 <> Some (VI z) /\ convert_safe U64 I64 (VI z) = Some (VI y) /\ y < 0.
Proof. exists [8; 9], 9223372036854775809, (-9223372036854775807). repeat split; simpl; auto; unfold lo, hi; simpl; try lia; try discriminate. Qed.
Print Assumptions C58_upcast_wrap_refuted.

(** ** C59: PutMask *)

(** Where the mask is set the value is converted and stored, elsewhere the array is unchanged. *)
Theorem C59_putmask_partial : forall ord threaded t u strided arr mask vals g,
  fair ord -> length mask = length arr -> length vals = length arr -> (length arr <= 1)%nat \/ strided = false ->
  (forall i x, nth_error mask i = Some true -> nth_error vals i = Some x -> convert_putmask t u x = Some (g x)) ->
  PutMask ord threaded t u strided arr mask vals = Some (Some (replaced (masked mask vals g) arr)).
Proof. exact PutMask_ok. Qed.
Print Assumptions C59_putmask_partial.
Theorem C59_putmask_numbers_partial : forall t u, t <> Bool \/ u = Bool -> keeps_numbers convert_putmask t u.
Proof. exact putmask_keeps. Qed.
Print Assumptions C59_putmask_numbers_partial.
Theorem C59_putmask_invalid : forall t u, keeps_invalid convert_putmask t u.
Proof. exact putmask_invalid. Qed.
Print Assumptions C59_putmask_invalid.
Example C59_putmask_example :
  PutMask in_order true I8 I32 false [VI 10; VI 11; VI 12; VI 13] [true; false; true; false] [VI 1; VI 2; VI (-128); VI 4] =
    Some (Some [VI 1; VI 11; VI (-2147483648); VI 13]).
Proof. vm_compute. reflexivity. Qed.
(** False is stored as the invalid value *)
Theorem C59_putmask_bool_refuted : exists u y, convert_putmask Bool u (VI 0) = Some y /\ invalid u = Some y.
Proof. exists I32, (VI (-2147483648)). split; reflexivity. Qed.
Print Assumptions C59_putmask_bool_refuted.
(** an infinity stored in an integer array is undefined behaviour *)
Theorem C59_putmask_infinity_refuted : exists arr mask vals, length mask = length arr /\ length vals = length arr /\
  PutMask in_order false F64 I32 false arr mask vals = None.
Proof. exists [VI 1], [true], [VF (S754_infinity false)]. split; [reflexivity|]. split; reflexivity. Qed.
Print Assumptions C59_putmask_infinity_refuted.
