(** C60-C64: filters combined with group numbers, first rows, trailing spaces, shifts. *)
From Verif Require Import Base Mem MemLemmas Par HashModel HashSpec CombModel CombSpec CombProofs.
Local Open Scope Z_scope.

(** ** C60 *)
(** Up to 2^31 rows: the first rows are int32. *)
Theorem C60_combine1_partial : forall w index max1 filter garbage, 0 < w -> has_width w index -> Z.of_nat (length index) <= 2 ^ 31 -> -1 <= max1 < 2000000000 ->
  (forall f, filter = Some f -> length f = length index) -> length garbage = length index ->
  exists out first, CombineAccum1Filter w index max1 filter garbage = Ok (out, first, Z.of_nat (length first)) /\ grouped (rows_kept max1 index filter) out first.
Proof. exact Accum1_ok. Qed.
Print Assumptions C60_combine1_partial.
Example C60_example : CombineAccum1Filter 8 [3; 1; 3; 2; 0; 2; 9] 3 (Some [true; false; true; true; true; true; true]) [7; 7; 7; 7; 7; 7; 7]
  = Ok ([1; 0; 1; 2; 0; 2; 0], [0; 3], 2).
Proof. vm_compute. reflexivity. Qed.
Theorem C60_filter_partial : forall ord thr w index filter, fair ord -> 0 < w -> has_width w index -> (forall b, In b filter -> b = 0 \/ b = 1) -> length index = length filter ->
  CombineFilter ord thr w index filter = Some (map (fun p : Z * Z => if snd p =? 0 then 0 else fst p) (combine index filter)).
Proof. exact CombineFilter_ok. Qed.
Print Assumptions C60_filter_partial.
Example C60_filter_example : CombineFilter in_order false 8 [5; -3; 7] [1; 1; 0] = Some [5; -3; 0].
Proof. vm_compute. reflexivity. Qed.
(** A boolean array may hold other bytes than 0 and 1 (a view of int8): the group number is multiplied. *)
Theorem C60_filter_refuted : exists index filter out, length index = length filter /\ CombineFilter in_order false 8 index filter = Some out /\
  exists i x y, nth_error index i = Some x /\ nth_error out i = Some y /\ nth_error filter i <> Some 0 /\ x <> y.
Proof. exists [5], [2], [10]. split; [auto|]. split; [vm_compute; reflexivity|]. exists 0%nat, 5, 10. repeat split; discriminate. Qed.
Print Assumptions C60_filter_refuted.

(** ** C61 *)
Theorem C61_combine2_partial : forall ord thr in1 in2 max1 max2 filter, fair ord -> length in2 = length in1 -> (forall f, filter = Some f -> length f = length in1) ->
  (forall x, In x in1 -> 0 <= x <= max1) -> (forall x, In x in2 -> 0 <= x <= max2) -> -1 <= max1 -> -1 <= max2 -> max1 + 1 < 2 ^ 63 -> max2 + 1 < 2 ^ 63 -> (max1 + 1) * (max2 + 1) < 2 ^ 63 ->
  CombineAccum2Filter ord thr in1 in2 max1 max2 filter =
    Ok (map (fun i => if pass_at filter i then nth i in2 0 * (max1 + 1) + nth i in1 0 else 0) (seq 0 (length in1))).
Proof. exact Accum2_ok. Qed.
Print Assumptions C61_combine2_partial.
(** the bins of two pairs are equal iff the pairs are *)
Theorem C61_bins_partial : forall max1 max2 x1 x2 y1 y2, 0 <= x1 <= max1 -> 0 <= y1 <= max1 -> 0 <= x2 <= max2 ->
  (x2 * (max1 + 1) + x1 = y2 * (max1 + 1) + y1 <-> x1 = y1 /\ x2 = y2) /\ 0 <= x2 * (max1 + 1) + x1 < (max1 + 1) * (max2 + 1).
Proof. intros. split; [apply pair_inj; lia|apply pair_range; lia]. Qed.
Print Assumptions C61_bins_partial.
Example C61_example : CombineAccum2Filter in_order false [0; 1; 2; 3] [2; 0; 1; 2] 3 2 (Some [true; true; false; true]) = Ok [8; 1; 0; 11].
Proof. vm_compute. reflexivity. Qed.
(** A negative group number (for example an invalid one) takes the bin of another pair, with and without a filter. *)
Theorem C61_negative_refuted : exists in1 in2 max1 max2 b, (forall filter, filter = None \/ filter = Some [true; true] ->
    CombineAccum2Filter in_order false in1 in2 max1 max2 filter = Ok [b; b]) /\ nth_error in1 0 <> nth_error in1 1 /\ nth_error in2 0 <> nth_error in2 1.
Proof. exists [-1; 2], [1; 0], 2, 2, 2. split; [intros f [-> | ->]; vm_compute; reflexivity|]. split; discriminate. Qed.
Print Assumptions C61_negative_refuted.
(** Without a filter the bins are not even bounded. *)
Theorem C61_unbounded_refuted : exists in1 in2 max1 max2 b, CombineAccum2Filter in_order false in1 in2 max1 max2 None = Ok [b] /\ (b < 0 \/ (max1 + 1) * (max2 + 1) <= b).
Proof. exists [-1], [0], 2, 2, (-1). split; [vm_compute; reflexivity|lia]. Qed.
Print Assumptions C61_unbounded_refuted.

(** ** C62 *)
Theorem C62_first_rows : forall index max1 filter last, -1 <= max1 < 20000000000 -> (forall f, filter = Some f -> length f = length index) ->
  exists first, MakeiFirst index max1 filter last = Ok first /\ rows_of_groups last max1 (rows_kept max1 index filter) first.
Proof. exact MakeiFirst_ok. Qed.
Print Assumptions C62_first_rows.
Example C62_example : MakeiFirst [2; 1; 2; 0; 4; 1] 3 (Some [true; false; true; true; true; true]) false = Ok [INVALID64; 5; 0; INVALID64] /\
  MakeiFirst [2; 1; 2; 0; 4; 1] 3 None true = Ok [INVALID64; 5; 2; INVALID64].
Proof. split; vm_compute; reflexivity. Qed.

(** ** C63 *)
Theorem C63_shift_1d : forall (A : Type) d s k (l : list A), exists l', ShiftArray [d] [s] k l = Some l' /\ shifted k l l'.
Proof. intros A d s. exact shift_flat_ok. Qed.
Print Assumptions C63_shift_1d.
(** Fortran order: each column is shifted by rows. *)
Theorem C63_shift_columns_partial : forall (A : Type) rows cols k (l : list A), (1 < rows)%nat -> length l = (cols * rows)%nat ->
  exists l', ShiftArray [rows; cols] [1; Z.of_nat rows] k l = Some l' /\ length l' = length l /\ forall c, (c < cols)%nat -> shifted k (part_of rows l c) (part_of rows l' c).
Proof. exact @ShiftArray_fortran_ok. Qed.
Print Assumptions C63_shift_columns_partial.
(** Never outside the array, whatever the shape. *)
Theorem C63_safe_partial : forall (A : Type) dims strides k (l : list A), (forall rows cols, dims = [rows; cols] -> (0 < rows)%nat /\ length l = (cols * rows)%nat) ->
  exists l', ShiftArray dims strides k l = Some l' /\ length l' = length l.
Proof. exact @ShiftArray_safe. Qed.
Print Assumptions C63_safe_partial.
Example C63_example : ShiftArray [5%nat] [1] 2 [1; 2; 3; 4; 5] = Some [3; 4; 5; 4; 5] /\ ShiftArray [5%nat] [1] (-2) [1; 2; 3; 4; 5] = Some [1; 2; 1; 2; 3] /\
  ShiftArray [3%nat; 2%nat] [1; 3] 1 [1; 2; 3; 4; 5; 6] = Some [2; 3; 3; 5; 6; 6].
Proof. repeat split; vm_compute; reflexivity. Qed.
(** C order: the items are shifted, not the rows: row 0 of the result is not row 1 of the array. *)
Theorem C63_rows_refuted : exists (l l' : list Z), ShiftArray [2%nat; 2%nat] [2; 1] 1 l = Some l' /\ part_of 2 l' 0 <> part_of 2 l 1.
Proof. exists [1; 2; 3; 4], [2; 3; 4; 4]. split; [vm_compute; reflexivity|]. vm_compute. discriminate. Qed.
Print Assumptions C63_rows_refuted.
(** Three dimensions in Fortran order: nothing is shifted. *)
Theorem C63_3d_nothing_partial : forall (A : Type) dims s0 s1 s2 k (l : list A), s0 < s1 -> ShiftArray dims (s0 :: s1 :: [s2]) k l = Some l.
Proof. intros A dims s0 s1 s2 k l H. unfold ShiftArray. apply Z.ltb_lt in H. rewrite H. now destruct dims. Qed.
Print Assumptions C63_3d_nothing_partial.

(** ** C64 *)
Theorem C64_trailing : forall n w chars i, length chars = (n * w)%nat -> (i < n)%nat ->
  length (TrailingSpaces n w chars) = length chars /\ trimmed (part_of w chars i) (part_of w (TrailingSpaces n w chars) i).
Proof. exact TrailingSpaces_ok. Qed.
Print Assumptions C64_trailing.
Example C64_example : TrailingSpaces 2 3 [65; 32; 32; 32; 66; 32] = [65; 0; 0; 32; 66; 0].
Proof. vm_compute. reflexivity. Qed.
Theorem C64_widen : forall n w w2, (w <= w2)%nat -> forall bytes i, length bytes = (n * w)%nat -> (i < n)%nat ->
  length (ConvertSafeStringCopy n w w2 bytes) = (n * w2)%nat /\
  part_of w2 (ConvertSafeStringCopy n w w2 bytes) i = part_of w bytes i ++ repeat 0 (w2 - w).
Proof. exact string_copy_ok. Qed.
Print Assumptions C64_widen.
Example C64_widen_example : ConvertSafeStringCopy 2 2 3 [65; 66; 67; 0] = [65; 66; 0; 67; 0; 0].
Proof. vm_compute. reflexivity. Qed.
