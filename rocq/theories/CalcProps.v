(** Properties C28, C32, C37 and C38: CRC-64, time windows, bit counts, minimum and maximum that pass invalid values on. *)
From Verif Require Import Num Base Mem CalcModel CalcSpec CalcProofs.
Local Open Scope Z_scope.

(** ** C28 *)

Theorem C28_crc64 : forall p, is_bytes p -> CalculateCRC p = Some (wrap 64 (crc64 ECMA 0 p)).
Proof. exact CalculateCRC_ok. Qed.
Print Assumptions C28_crc64.

(** with any polynomial and starting value; the tables are those the code builds *)
Theorem C28_slicing :
  forall poly h crc p, 0 <= poly < 2 ^ 64 -> 0 <= crc < 2 ^ 64 -> is_bytes p ->
  makeSlicingBy8Table (makeTable poly) = Some h -> CalculateCRC64 h crc p = Some (crc64 poly crc p).
Proof. intros poly h crc p Hp Hc Hb. rewrite helper_ok. intros [= <-]. now apply crc64_ok. Qed.
Print Assumptions C28_slicing.

Theorem C28_incremental :
  forall poly h crc a b c, 0 <= poly < 2 ^ 64 -> 0 <= crc < 2 ^ 64 -> is_bytes (a ++ b) ->
  makeSlicingBy8Table (makeTable poly) = Some h -> CalculateCRC64 h crc a = Some c -> CalculateCRC64 h c b = CalculateCRC64 h crc (a ++ b).
Proof.
  intros poly h crc a b c Hp Hc Hb. rewrite helper_ok. intros [= <-].
  assert (Ha : is_bytes a) by (intros x Hx; apply Hb, in_or_app; auto). assert (Hb' : is_bytes b) by (intros x Hx; apply Hb, in_or_app; auto).
  rewrite !crc64_ok by auto. intros [= <-]. rewrite !crc64_ok by (auto; now apply crc64_bnd). now rewrite crc64_app.
Qed.
Print Assumptions C28_incremental.

(** changes inside eight consecutive bytes are always seen *)
Theorem C28_detects :
  forall a x y c, is_bytes (a ++ x ++ c) -> is_bytes y -> length x = length y -> (length x <= 8)%nat ->
  crc64 ECMA 0 (a ++ x ++ c) = crc64 ECMA 0 (a ++ y ++ c) -> x = y.
Proof. intros a x y c Hb Hy L L8. apply crc64_detects; auto; unfold bnd, ECMA; lia. Qed.
Print Assumptions C28_detects.

(** CRC-64/XZ of "123456789" is 0x995DC9BBDF1939FA *)
Example C28_example : crc64 ECMA 0 [49; 50; 51; 52; 53; 54; 55; 56; 57] = 0x995DC9BBDF1939FA /\
  CalculateCRC [49; 50; 51; 52; 53; 54; 55; 56; 57] = Some (0x995DC9BBDF1939FA - 2 ^ 64) /\
  CalculateCRC (map Z.of_nat (seq 0 100)) = Some (wrap 64 (crc64 ECMA 0 (map Z.of_nat (seq 0 100)))) /\
  crc64 ECMA 0 [1; 2; 3] <> crc64 ECMA 0 [1; 2; 4].
Proof. split; [|split; [|split]]; vm_compute; congruence. Qed.

(** ** C32.  Integers are added modulo 2^64, read as signed ([wrap 64]) or unsigned. *)

Theorem C32_sum_signed_partial :
  forall ord thr vals times delta d, fair ord -> length times = length vals -> sorted_times times -> close_times times -> 0 <= delta ->
  TimeWindow (wrap 64) (fun a x => wrap 64 (a + x)) ord thr vals times delta d =
    Some (map (fun i => wrap 64 (zsum (within vals times delta i))) (seq 0 (length vals))).
Proof. intros. apply TimeWindow_sum; auto. now apply reducing_wrap. Qed.
Print Assumptions C32_sum_signed_partial.

Theorem C32_sum_unsigned_partial :
  forall ord thr vals times delta d, fair ord -> length times = length vals -> sorted_times times -> close_times times -> 0 <= delta ->
  TimeWindow (fun x => x mod 2 ^ 64) (fun a x => (a + x) mod 2 ^ 64) ord thr vals times delta d =
    Some (map (fun i => zsum (within vals times delta i) mod 2 ^ 64) (seq 0 (length vals))).
Proof. intros. apply (TimeWindow_sum (fun x => x mod 2 ^ 64)); auto. apply reducing_mod. Qed.
Print Assumptions C32_sum_unsigned_partial.

Theorem C32_prod_signed_partial :
  forall ord thr vals times delta d, fair ord -> length times = length vals -> sorted_times times -> close_times times -> 0 <= delta ->
  TimeWindow (wrap 64) (fun a x => wrap 64 (a * x)) ord thr vals times delta d =
    Some (map (fun i => wrap 64 (zprod (within vals times delta i))) (seq 0 (length vals))).
Proof. intros. apply TimeWindow_prod; auto. now apply reducing_wrap. Qed.
Print Assumptions C32_prod_signed_partial.

(** any type of value and any operation (floating point: in exactly this order); any distance *)
Theorem C32_any_partial :
  forall T U (conv : T -> U) (op : U -> T -> U) ord thr vals times delta d, fair ord -> length times = length vals -> sorted_times times -> close_times times ->
  exists r, TimeWindow conv op ord thr vals times delta d = Some r /\ length r = length vals /\
    forall i y, nth_error r i = Some y -> window_row conv op vals times delta i y.
Proof. intros T U conv op ord thr vals times delta d Ho L S C. now apply TimeWindow_ok. Qed.
Print Assumptions C32_any_partial.

(** Ascending times more than 2^63 apart: the difference of the two times overflows. *)
Theorem C32_overflow_refuted :
  exists vals times delta, length times = length vals /\ sorted_times times /\ 0 <= delta /\ (forall t, In t times -> - 2 ^ 63 <= t < 2 ^ 63) /\
  TimeWindow (wrap 64) (fun a x => wrap 64 (a + x)) in_order false vals times delta 0 = None.
Proof.
  exists [1; 2], [- 2 ^ 62 - 1; 2 ^ 62], 5. split; [reflexivity|]. split; [apply sorted_times_2; lia|].
  split; [lia|]. split; [|vm_compute; reflexivity]. cbn. intros t [<- | [<- | []]]; lia.
Qed.
Print Assumptions C32_overflow_refuted.

(** A negative distance: the row itself is counted although it is not within the distance. *)
Theorem C32_negative_refuted :
  exists vals times delta, length times = length vals /\ sorted_times times /\ close_times times /\
  TimeWindow (wrap 64) (fun a x => wrap 64 (a + x)) in_order false vals times delta 0 <>
    Some (map (fun i => wrap 64 (zsum (within vals times delta i))) (seq 0 (length vals))).
Proof.
  exists [7], [3], (-1). split; [reflexivity|]. split; [apply sorted_times_1|].
  split; [|vm_compute; discriminate]. intros x y [<- | []] [<- | []]. reflexivity.
Qed.
Print Assumptions C32_negative_refuted.

Example C32_example :
  TimeWindow (wrap 64) (fun a x => wrap 64 (a + x)) in_order true [1; 2; 4; 8; 16] [0; 1; 1; 4; 6] 2 0 = Some [1; 3; 7; 8; 24] /\
  map (within [1; 2; 4; 8; 16] [0; 1; 1; 4; 6] 2) (seq 0 5) = [[1]; [1; 2]; [1; 2; 4]; [8]; [8; 16]].
Proof. split; vm_compute; reflexivity. Qed.

(** ** C37 *)

Theorem C37_bitcount : forall isz items, In isz [1; 2; 4; 8] -> BitCount false isz items = Some (map (ones (8 * isz)) items).
Proof. exact BitCount_ok. Qed.
Print Assumptions C37_bitcount.

Theorem C37_bool : forall items, (forall n, In n items -> n = 0 \/ n = 1) -> BitCount true 1 items = Some (map (ones 8) items).
Proof. exact BitCount_bool_ok. Qed.
Print Assumptions C37_bool.

Example C37_example : BitCount false 1 [-1; 0; 100; -128] = Some [8; 0; 3; 1] /\ BitCount false 2 [-1; 1000] = Some [16; 6] /\
  BitCount false 8 [-1; 5] = Some [64; 2].
Proof. split; [|split]; vm_compute; reflexivity. Qed.

(** ** C38 *)

Theorem C38_min : forall x y, (is_nan (fmin_pass x y) = is_nan x || is_nan y) /\
  (is_nan x = false -> is_nan y = false -> fmin_pass x y = if flt x y then x else y).
Proof. intros x y. split; [apply fmin_nan|apply fmin_val]. Qed.
Print Assumptions C38_min.

Theorem C38_max : forall x y, (is_nan (fmax_pass x y) = is_nan x || is_nan y) /\
  (is_nan x = false -> is_nan y = false -> fmax_pass x y = if flt y x then x else y).
Proof. intros x y. split; [apply fmax_nan|apply fmax_val]. Qed.
Print Assumptions C38_max.

(** [lo], [hi]: the smallest and largest value of the integer type; [inv]: its invalid value *)
Theorem C38_int : forall lo hi inv x y, lo <= x <= hi -> lo <= y <= hi -> lo <= inv <= hi ->
  imin_pass lo inv x y = (if (x =? inv) || (y =? inv) then inv else Z.min x y) /\
  imax_pass hi inv x y = (if (x =? inv) || (y =? inv) then inv else Z.max x y).
Proof. intros. split; [apply imin_spec|apply imax_spec]; lia. Qed.
Print Assumptions C38_int.

(** any order and any grouping of the same values *)
Theorem C38_grouping : forall t t' : tree fl, Permutation (leaves t) (leaves t') ->
  reduce fmin_pass t = reduce fmin_pass t' /\ reduce fmax_pass t = reduce fmax_pass t'.
Proof.
  intros t t' P. split; apply reduce_perm; auto using fmin_comm, fmin_assoc, fmax_comm, fmax_assoc.
Qed.
Print Assumptions C38_grouping.

Theorem C38_grouping_int : forall lo hi inv (t t' : tree Z), Permutation (leaves t) (leaves t') -> lo <= inv <= hi -> (forall x, In x (leaves t) -> lo <= x <= hi) ->
  reduce (imin_pass lo inv) t = reduce (imin_pass lo inv) t' /\ reduce (imax_pass hi inv) t = reduce (imax_pass hi inv) t'.
Proof. exact imm_grouping. Qed.
Print Assumptions C38_grouping_int.

Example C38_example : fmin_pass (Fin 3) NaN = NaN /\ fmin_pass NInf (Fin 3) = NInf /\ fmax_pass (Fin 3) (Fin 5) = Fin 5 /\
  imin_pass (-128) (-128) 5 7 = 5 /\ imin_pass 0 255 5 255 = 255 /\ imax_pass 127 (-128) 5 (-128) = -128 /\
  reduce fmin_pass (Node (Leaf (Fin 3)) (Node (Leaf (Fin 1)) (Leaf (Fin 2)))) = Fin 1.
Proof. repeat split. Qed.
