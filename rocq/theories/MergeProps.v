(** Property theorems for boolean masks, fancy indexing and shuffles (C05, C06, C07, C08, C39). *)
From Verif Require Import Base Mem MergeModel MergeSpec MergeProofs Merge2Proofs.
Local Open Scope Z_scope.

(** C05.  Counting. *)
Theorem C05_boolean_sum_counts_true :
  forall ord thr c mb stride len junk,
  fair ord -> bytes mb -> (0 < c)%nat -> (thr = true -> (0 < len)%nat) ->
  BooleanSum ord thr c mb stride len junk = Some (Z.of_nat (length (true_positions mb stride len))).
Proof. exact boolean_sum. Qed.
Print Assumptions C05_boolean_sum_counts_true.

(** C05.  Selection: for every order in which the writes of both threaded passes happen, the result holds
    the values at the True positions in ascending order.  Guard: excludes contiguous masks over strided
    values of an item size other than 1, 2, 4, 8 (see the refutation below). *)
Theorem C05_boolean_index_partial :
  forall (A : Type) mb (vb : Z -> A) ord1 ord2 thr c isz sb sv len junk d,
  fair ord1 -> fair ord2 -> bytes mb -> (0 < c)%nat -> (thr = true -> (0 < len)%nat) -> 0 < isz ->
  (sb <> 1 \/ std_size isz = true \/ sv = isz) ->
  BooleanIndex mb vb ord1 ord2 thr c isz sb sv len junk d =
    Some (map (fun i => vb (Z.of_nat i * sv)) (true_positions mb sb len)).
Proof. exact @boolean_index. Qed.
Print Assumptions C05_boolean_index_partial.

Example C05_example :
  BooleanIndex (fun p => nth (Z.to_nat p) [1; 0; 255; 0; 0; 0; 0; 7; 1; 0; 1] 0) (fun p => p) (fun B => @rev B) (fun B => @rev B)
    true 4 8 1 16 11 (-1) 99 = Some [0; 32; 112; 128; 160].
Proof. vm_compute. reflexivity. Qed.

(** Two 3-byte items at stride 6, both selected: the second one is written past the end of the output. *)
Theorem C05_strided_odd_items_refuted :
  exists mb (vb : Z -> Z) isz sv len, bytes mb /\ 0 < isz /\
    forall junk d, BooleanIndex mb vb in_order in_order false CHUNK isz 1 sv len junk d = None.
Proof. exact boolean_index_bad. Qed.
Print Assumptions C05_strided_odd_items_refuted.

(** C06. Contiguous masks (stride 1). *)
Theorem C06_boolean_to_fancy_partial :
  forall ord1 ord2 thr c mb len both junk d,
  fair ord1 -> fair ord2 -> bytes mb -> (0 < c)%nat -> (thr = true -> (0 < len)%nat) -> Z.of_nat len <= 2 ^ 63 ->
  BooleanToFancy ord1 ord2 thr c mb 1 len both junk d =
    Some (map Z.of_nat (true_positions mb 1 len ++ if both then false_positions mb 1 len else []),
          Z.of_nat (length (true_positions mb 1 len))).
Proof. exact boolean_to_fancy. Qed.
Print Assumptions C06_boolean_to_fancy_partial.

Example C06_example :
  BooleanToFancy (fun B => @rev B) (fun B => @rev B) true 4 (fun p => nth (Z.to_nat p) [1; 0; 255; 0; 0; 0; 0; 7; 1; 0; 1] 0)
    1 11 true (-1) 99 = Some ([0; 2; 7; 8; 10; 1; 3; 4; 5; 6; 9], 5).
Proof. vm_compute. reflexivity. Qed.

(** The full property (every stride) fails: the positions are taken from the bytes 0, 1, 2, ... although
    the mask's elements are 2 bytes apart.  Elements: True, True; reported: [0]. *)
Theorem C06_strided_mask_refuted :
  exists mb sb len, bytes mb /\
    forall junk d, exists r, BooleanToFancy in_order in_order false CHUNK mb sb len false junk d = Some r /\
      fst r <> map Z.of_nat (true_positions mb sb len).
Proof. exact boolean_to_fancy_bad. Qed.
Print Assumptions C06_strided_mask_refuted.

(** C07.  Guards: unsigned index arrays only with values below 2^(w-1) and with item sizes 1, 2, 4, 8, 16;
    threaded calls only with contiguous values.  [Some] means that no read or write was out of bounds. *)
Theorem C07_fancy_index_partial :
  forall (A : Type) (vals : list A) dflt ord thr c t isz sv idx d,
  fair ord -> (0 < c)%nat -> 0 < itBits t -> 0 < isz ->
  (forall i, In i idx -> index_in_range (itUnsigned t) (itBits t) i) ->
  (itUnsigned t = true -> fixed_size isz = true) ->
  (thr = true -> sv = isz) ->
  MBGet vals dflt ord thr c t isz sv idx d = Some (map (py_get vals dflt) idx).
Proof. exact @mbget. Qed.
Print Assumptions C07_fancy_index_partial.

Example C07_example :
  MBGet [10; 20; 30] (-1) (fun B => @rev B) true 2 (mkIT 8 false) 8 8 [0; 2; 3; -1; -3; -4; -128] 0
  = Some [10; 30; -1; 30; 10; -1; -1].
Proof. vm_compute. reflexivity. Qed.

(** uint8 index 200 into 250 values: the default is returned instead of the value. *)
Theorem C07_unsigned_index_refuted :
  exists (vals : list Z) dflt i,
    fits_unsigned 8 i /\ 0 <= i < Z.of_nat (length vals) /\
    MBGet vals dflt in_order false CHUNK (mkIT 8 true) 8 8 [i] 0 = Some [dflt] /\ py_get vals dflt i <> dflt.
Proof. exact mbget_bad_unsigned. Qed.
Print Assumptions C07_unsigned_index_refuted.

(** Items of another size (strings) indexed by an unsigned array: with one index the output pointer never
    meets its end. *)
Theorem C07_unsigned_index_of_strings_refuted :
  exists (vals : list Z) dflt i, fits_unsigned 32 i /\ 0 <= i < Z.of_nat (length vals) /\
    MBGet vals dflt in_order false CHUNK (mkIT 32 true) 5 5 [i] 0 = None.
Proof. exact mbget_bad_strings. Qed.
Print Assumptions C07_unsigned_index_of_strings_refuted.

(** Threaded fancy indexing of strided values writes outside the output. *)
Theorem C07_strided_values_refuted :
  exists (vals idx : list Z) dflt c sv,
    (forall i, In i idx -> 0 <= i < Z.of_nat (length vals)) /\
    MBGet vals dflt in_order true c (mkIT 32 false) 8 sv idx 0 = None.
Proof. exact mbget_bad_stride. Qed.
Print Assumptions C07_strided_values_refuted.

(** C08. *)
Theorem C08_reverse_shuffle_is_inverse :
  forall ord thr c w inp d, fair ord -> (0 < c)%nat -> 0 < w -> Z.of_nat (length inp) <= 2 ^ (w - 1) ->
  Permutation inp (map Z.of_nat (seq 0 (length inp))) ->
  exists out, ReverseShuffle ord thr c w inp d = Some out /\ length out = length inp /\
    (forall i x, nth_error inp i = Some x -> nth_error out (Z.to_nat x) = Some (Z.of_nat i)) /\
    (forall j y, nth_error out j = Some y -> nth_error inp (Z.to_nat y) = Some (Z.of_nat j)).
Proof. exact reverse_shuffle_inverse. Qed.
Print Assumptions C08_reverse_shuffle_is_inverse.

Theorem C08_reverse_shuffle_never_out_of_bounds :
  forall ord thr c w inp d, fair ord -> (0 < c)%nat ->
  exists out, ReverseShuffle ord thr c w inp d = Some out /\ length out = length inp.
Proof. exact reverse_shuffle_safe. Qed.
Print Assumptions C08_reverse_shuffle_never_out_of_bounds.

Example C08_example : ReverseShuffle (fun B => @rev B) true 2 32 [2; 0; 3; 4; 1] (-7) = Some [1; 4; 0; 2; 3].
Proof. vm_compute. reflexivity. Qed.

(** C39. ReIndexGroups, partitions processed in any order: every row of partition [t] gets the unique its key
    selects, counted from the start of the partition's uniques; rows after the last cut-off stay. *)
Theorem C39_reindex_groups :
  forall w ukey ucut icut order ikey,
  Permutation order (seq 0 (length icut)) ->
  (forall t, 0 <= part_lo ucut t) ->
  (forall a b, (a <= b < length icut)%nat -> nth a icut 0 <= nth b icut 0) ->
  (forall t, (t < length icut)%nat -> 0 <= nth t icut 0 <= Z.of_nat (length ikey)) ->
  exists ikey', ReIndexGroups w ukey ucut icut order ikey = Some ikey' /\ length ikey' = length ikey /\
    (forall t i, (t < length icut)%nat -> part_lo icut t <= Z.of_nat i < nth t icut 0 ->
       nth_error ikey' i = option_map (remapped w ukey (part_lo ucut t)) (nth_error ikey i)) /\
    (forall i, (forall t, (t < length icut)%nat -> nth t icut 0 <= Z.of_nat i) -> nth_error ikey' i = nth_error ikey i).
Proof. exact reindex_groups. Qed.
Print Assumptions C39_reindex_groups.

Example C39_example :
  ReIndexGroups 32 [7; 8; 9; 5; 6] [3; 5] [3; 6] [1; 0]%nat [1; 3; 0; 2; 1; 3; 44] = Some [7; 9; 0; 6; 5; 0; 44].
Proof. vm_compute. reflexivity. Qed.

(** A key above the number of uniques of its own partition is not marked as filtered: it takes a unique
    of the next partition. *)
Theorem C39_key_beyond_own_uniques_refuted :
  exists ukey ucut icut ikey t i key, (t < length icut)%nat /\ part_lo icut t <= Z.of_nat i < nth t icut 0 /\
    nth_error ikey i = Some key /\ nth t ucut 0 - part_lo ucut t < key /\
    exists r u, ReIndexGroups 32 ukey ucut icut (seq 0 (length icut)) ikey = Some r /\
    nth_error r i = Some u /\ u <> 0.
Proof. exact reindex_bad. Qed.
Print Assumptions C39_key_beyond_own_uniques_refuted.
