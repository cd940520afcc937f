(** C107: BinsToCutsBSearch.  C108: NanInfCountFromSort and BinsToCutsSorted.  C109: ReIndex and ReMapIndex. *)
From Verif Require Import Base Mem Num AllModel AllSpec EaModel EaSpec BnModel BnSpec BnProofs Bn2Proofs Bn3Proofs.
From Verif Require BinsSpec.
Local Open Scope Z_scope.

(** ** C107 *)
(** BinsToCutsBSearch(values, edges, 1 or 2): each value gets the number of edges that are less than it (1) or not greater than it (2), NaN counting as
    greater than every edge.  For arrays without gaps, and if the values are numbers of the type of the edges and the edges are of the type of the values. *)
Theorem C107_search_partial : forall unit round ord threads chunk junk a bins mode,
  0 < unit -> fair ord -> (0 < chunk)%nat -> numeric unit round a -> edges_given unit round a bins -> In mode [1; 2] -> BinsSpec.ascending (arg_vals 0 bins) ->
  BinsToCutsBSearch unit round ord threads chunk junk (Nums a bins) mode =
    Done (small_dtype (a_len bins), map (if mode =? 1 then BinsSpec.count_lt (arg_vals 0 bins) else BinsSpec.count_le (arg_vals 0 bins)) (arg_vals NaN a)).
Proof. intros. now apply search_right_call. Qed.
Print Assumptions C107_search_partial.
Example C107_search_ex :
  Cuts (Nums (nums 12 [Fin 5; NaN; NInf; PInf; Fin 10]) (ints 12 [0; 10; 20])) 1 = Done (1, [1; 3; 0; 3; 1]) /\
  Cuts (Nums (nums 12 [Fin 5; NaN; NInf; PInf; Fin 10]) (ints 12 [0; 10; 20])) 2 = Done (1, [1; 3; 0; 3; 2]) /\
  numeric 1 (fun _ z => z) (nums 1 [Fin 5; Fin 10]) /\ edges_given 1 (fun _ z => z) (nums 1 [Fin 5; Fin 10]) (ints 5 [0; 10; 20]).
Proof.
  split; [vm_compute; reflexivity|]. split; [vm_compute; reflexivity|]. split.
  - split; [cbn; lia|]. split; [cbn; lia|]. split; [split; [reflexivity|split; [cbn; lia|cbn; intros; lia]]|]. split; [left; reflexivity|]. unfold holds. change (arg_vals NaN (nums 1 [Fin 5; Fin 10])) with [Fin 5; Fin 10]. repeat constructor; [exists 5|exists 10]; lia.
  - split; [cbn; tauto|]. split; [split; [reflexivity|split; [cbn; lia|cbn; intros; lia]]|]. split; [left; reflexivity|]. split; [split; cbn; lia|]. change (arg_vals 0 (ints 5 [0; 10; 20])) with [0; 10; 20]. change (arg_vals NaN (nums 1 [Fin 5; Fin 10])) with [Fin 5; Fin 10].
    split; repeat constructor; [exists 0|exists 10|exists 20|exists 5|exists 10]; lia.
Qed.

(** BinsToCutsBSearch(values, edges, 0): each value gets the bin it lies in, and 0 if it lies in none or is not a proper number: NaN, infinite, or the
    integer that stands for a missing value.  Under the same conditions, for types other than bool. *)
Theorem C107_cut_partial : forall unit round ord threads chunk junk a bins,
  0 < unit -> fair ord -> (0 < chunk)%nat -> numeric unit round a -> a_dtype a <> 0 -> edges_given unit round a bins -> BinsSpec.strictly_ascending (arg_vals 0 bins) ->
  exists r, BinsToCutsBSearch unit round ord threads chunk junk (Nums a bins) 0 = Done (small_dtype (a_len bins), r) /\ Z.of_nat (length r) = a_len a /\
    forall i v, nth_error (arg_vals NaN a) i = Some v -> exists x, nth_error r i = Some x /\ 0 <= x /\
      forall b, 1 <= b -> (x = b <-> proper unit (a_dtype a) v = true /\ BinsSpec.in_bin (arg_vals 0 bins) v b).
Proof. intros. now apply cut_call. Qed.
Print Assumptions C107_cut_partial.
Example C107_cut_ex :
  Cuts (Nums (nums 1 [Fin 5; Fin (-128); Fin 0; Fin 20; Fin 10; Fin (-1)]) (ints 5 [-128; 10; 20])) 0 = Done (1, [1; 0; 1; 2; 1; 1]) /\
  Cuts (Nums (nums 12 [Fin 5; NaN; NInf; PInf; Fin 10; Fin (-1)]) (ints 12 [0; 10; 20])) 0 = Done (1, [1; 0; 0; 0; 1; 0]) /\
  proper 1 1 (Fin (-128)) = false /\ proper 1 3 (Fin (-128)) = true /\ proper 1 2 (Fin 255) = false.
Proof. repeat split; vm_compute; reflexivity. Qed.

(** The same for byte strings; 0 also for the empty string.  Without threads, or for strings of one byte. *)
Theorem C107_text_partial : forall unit round ord threads chunk junk size a bins mode,
  fair ord -> (0 < chunk)%nat -> threads = false \/ size = 1 -> a_dtype a = 18 -> a_dtype bins = 18 -> - 2 ^ 31 <= mode < 2 ^ 31 ->
  0 <= a_len a -> arg_ok (a_len a) a -> gapless a -> arg_ok (a_len bins) bins -> gapless bins -> BinsSpec.edges_ok (a_len bins) ->
  0 <= size -> Forall (fun s => Z.of_nat (length s) = size /\ BinsSpec.good_string s) (arg_vals [] a) -> Forall BinsSpec.good_string (arg_vals [] bins) ->
  BinsSpec.texts_ascending (arg_vals [] bins) ->
  exists r, BinsToCutsBSearch unit round ord threads chunk junk (Texts size a bins) mode = Done (small_dtype (a_len bins), r) /\ Z.of_nat (length r) = a_len a /\
    forall i s, nth_error (arg_vals [] a) i = Some s -> exists x, nth_error r i = Some x /\ 0 <= x /\
      forall b, 1 <= b -> (x = b <-> BinsSpec.text s <> [] /\ BinsSpec.text_in_bin (map BinsSpec.text (arg_vals [] bins)) (BinsSpec.text s) b).
Proof. intros. now apply text_call. Qed.
Print Assumptions C107_text_partial.
Definition words (l : list (list Z)) : arg (list Z) := mkArg 18 l 0 1 (Z.of_nat (length l)).
Example C107_text_ex : Cuts (Texts 2 (words [[97; 0]; [98; 98]; [0; 0]]) (words [[97]; [98]; [99]])) 0 = Done (1, [1; 2; 0]) /\ BinsSpec.good_string [97; 0] /\ BinsSpec.text [97; 0] = [97].
Proof. split; [vm_compute; reflexivity|]. split; [|reflexivity]. split; [exists [97], 1%nat; split; [reflexivity|cbn; lia]|cbn; lia]. Qed.

(** What is refused: a mode that is not 0, 1 or 2 (for numbers), types that are not supported, text and edges of two kinds. *)
Theorem C107_refused : forall unit round ord threads chunk junk,
  (forall x mode, ~ (- 2 ^ 31 <= mode < 2 ^ 31) -> BinsToCutsBSearch unit round ord threads chunk junk x mode = Error) /\
  (forall a bins mode, ~ In mode [0; 1; 2] \/ ~ 0 <= a_dtype a <= 13 \/ ~ In (a_dtype bins) edge_dtypes -> BinsToCutsBSearch unit round ord threads chunk junk (Nums a bins) mode = Error) /\
  (forall size a bins mode, a_dtype a <> a_dtype bins \/ ~ In (a_dtype a) [18; 19] -> BinsToCutsBSearch unit round ord threads chunk junk (Texts size a bins) mode = Error).
Proof.
  intros. split; [intros; now apply mode_refused|]. split; [intros; now apply numbers_refused|]. intros. now apply texts_refused.
Qed.
Print Assumptions C107_refused.
Example C107_refused_ex : Cuts (Nums (nums 1 [Fin 5]) (ints 5 [0; 10])) 3 = Error /\ Cuts (Nums (nums 1 [Fin 5]) (ints 6 [0; 10])) 0 = Error /\ Cuts (Nums (nums 23 [Fin 5]) (ints 5 [0; 10])) 0 = Error.
Proof. repeat split; vm_compute; reflexivity. Qed.

(** Edges of another type are converted to the type of the values: 2 among the edges 0.5, 1.5 and 2.5 is greater than two of them, but 3 is returned;
    the edge 1000 is -24 as an int8, and 50 gets no bin between 0 and 1000; 1.5 is converted to 1 before it is compared with the edges 0, 1 and 2 *)
Theorem C107_converted_edges_refuted :
  (Halves (Nums (nums 5 [Fin 4]) (ints 12 [1; 3; 5])) 2 = Done (1, [3]) /\ BinsSpec.count_le [1; 3; 5] (Fin 4) = 2) /\
  (Cuts (Nums (nums 1 [Fin 50]) (ints 5 [0; 1000])) 0 = Done (1, [0]) /\ BinsSpec.in_bin [0; 1000] (Fin 50) 1) /\
  (Halves (Nums (nums 12 [Fin 3]) (ints 5 [0; 2; 4])) 0 = Done (1, [1]) /\ BinsSpec.in_bin [0; 2; 4] (Fin 3) 2).
Proof.
  split; [split; vm_compute; reflexivity|]. split; (split; [vm_compute; reflexivity|]); left; (split; [lia|]).
  - exists 0, 1000. repeat split.
  - exists 2, 4. repeat split.
Qed.
Print Assumptions C107_converted_edges_refuted.
(** False gets no bin *)
Theorem C107_bool_refuted : exists a bins, numeric 1 (fun _ z => z) a /\ a_dtype a = 0 /\ Cuts (Nums a bins) 0 = Done (1, [0; 2]) /\ arg_vals NaN a = [Fin 0; Fin 1] /\ arg_vals 0 bins = [-1; 0; 1] /\ BinsSpec.in_bin [-1; 0; 1] (Fin 0) 1.
Proof.
  exists (nums 0 [Fin 0; Fin 1]), (ints 1 [-1; 0; 1]). split; [|split; [reflexivity|split; [vm_compute; reflexivity|split; [reflexivity|split; [reflexivity|left; split; [lia|exists (-1), 0; repeat split]]]]]].
  split; [cbn; lia|]. split; [cbn; lia|]. split; [split; [reflexivity|split; [cbn; lia|cbn; intros; lia]]|]. split; [left; reflexivity|]. unfold holds. change (arg_vals NaN (nums 0 [Fin 0; Fin 1])) with [Fin 0; Fin 1]. repeat constructor; [exists 0|exists 1]; lia.
Qed.
Print Assumptions C107_bool_refuted.
(** Arrays with gaps are read as if there were none: values[::2] of 5, 30 and 15; edges[::2] of 0, 5 and 10 *)
Theorem C107_strided_refuted :
  (exists a, arg_vals NaN a = [Fin 5; Fin 15] /\ Cuts (Nums a (ints 5 [0; 10; 20])) 0 = Done (1, [1; 0]) /\ BinsSpec.in_bin [0; 10; 20] (Fin 15) 2) /\
  (exists bins, arg_vals 0 bins = [0; 10] /\ Cuts (Nums (nums 1 [Fin 7]) bins) 0 = Done (1, [0]) /\ BinsSpec.in_bin [0; 10] (Fin 7) 1).
Proof.
  split.
  - exists (mkArg 1 [Fin 5; Fin 30; Fin 15] 0 2 2). split; [reflexivity|]. split; [vm_compute; reflexivity|]. left. split; [lia|]. exists 10, 20. repeat split.
  - exists (mkArg 5 [0; 5; 10] 0 2 2). split; [reflexivity|]. split; [vm_compute; reflexivity|]. left. split; [lia|]. exists 0, 10. repeat split.
Qed.
Print Assumptions C107_strided_refuted.
(** Without edges, memory outside of the array is read, whatever the values *)
Theorem C107_no_edges_refuted : forall v, Cuts (Nums (nums 1 v) (ints 5 [])) 0 = Undefined.
Proof. intros v. unfold Cuts, BinsToCutsBSearch, nums, ints. cbn [int32_ok negb search_fun value_type bin_type a_dtype a_len length]. destruct (read_arg _) eqn:E; reflexivity. Qed.
Print Assumptions C107_no_edges_refuted.
(** For text the mode is not looked at: 'a' is not greater than any of 'a', 'b' and 'c', but searchsorted returns 1.  For unicode text nothing is written to the output *)
Theorem C107_text_modes_refuted :
  (Cuts (Texts 1 (words [[97]]) (words [[97]; [98]; [99]])) 1 = Done (1, [1]) /\ forall e, In e [[97]; [98]; [99]] -> BinsSpec.lex e [97] <> Lt) /\
  (forall unit round ord threads chunk junk size a bins mode, a_dtype a = 19 -> a_dtype bins = 19 -> - 2 ^ 31 <= mode < 2 ^ 31 ->
     exists d, BinsToCutsBSearch unit round ord threads chunk junk (Texts size a bins) mode = Done (d, repeat junk (Z.to_nat (a_len a)))).
Proof.
  split; [split; [vm_compute; reflexivity|]|].
  - cbn [In]. intros e [<- | [<- | [<- | []]]]; discriminate.
  - intros. eexists. unfold BinsToCutsBSearch. rewrite int32_right by assumption. rewrite H, H0. reflexivity.
Qed.
Print Assumptions C107_text_modes_refuted.

(** ** C108 *)
(** NanInfCountFromSort(values, index) returns how many values are NaN, infinite and minus infinite; an unsigned integer that stands for a missing value
    counts as infinite, a signed one as minus infinite.  For an index that sorts the values, and fewer than 2^31 rows. *)
Theorem C108_counts : forall unit round a idx,
  0 <= a_dtype a <= 13 -> 0 <= a_len a < 2 ^ 31 -> arg_ok (a_len a) a -> holds unit round (a_dtype a) (arg_vals NaN a) ->
  one_by_one a -> one_by_one idx -> a_len idx = a_len a -> sorts idx (map (seen unit (a_dtype a)) (arg_vals NaN a)) ->
  let vs := map (seen unit (a_dtype a)) (arg_vals NaN a) in
  NanInfCountFromSort unit a idx = Done (Some (how_many NaN vs, how_many PInf vs, how_many NInf vs)).
Proof. intros unit round a idx. exact (counts_call unit round a idx). Qed.
Print Assumptions C108_counts.
Example C108_counts_ex :
  CountsOf (nums 12 [Fin 5; NaN; NInf; PInf; NaN; Fin 10]) (ints 7 [2; 0; 5; 3; 1; 4]) = Done (Some (2, 1, 1)) /\
  CountsOf (nums 1 [Fin 5; Fin (-128); Fin 3]) (ints 7 [1; 2; 0]) = Done (Some (0, 0, 1)) /\ CountsOf (nums 2 [Fin 5; Fin 255; Fin 3]) (ints 5 [2; 0; 1]) = Done (Some (0, 1, 0)) /\
  CountsOf (mkArg 1 [Fin 5; Fin 9; Fin (-128); Fin 9; Fin 3] 0 2 3) (ints 7 [1; 2; 0]) = Done (Some (0, 0, 1)) /\
  sorts (ints 7 [1; 2; 0]) (map (seen 1 1) [Fin 5; Fin (-128); Fin 3]).
Proof.
  split; [vm_compute; reflexivity|]. split; [vm_compute; reflexivity|]. split; [vm_compute; reflexivity|]. split; [vm_compute; reflexivity|]. split; [cbn; auto|]. split; [split; [reflexivity|split; [cbn; lia|cbn; intros; lia]]|]. split.
  - change (Permutation [1; 2; 0] [0; 1; 2]). apply Permutation_sym. apply (Permutation_cons_append [1; 2] 0).
  - intros i j a b Hij Ha Hb. destruct i as [|[|[|i]]], j as [|[|[|j]]]; try lia; cbn in Ha, Hb; try (destruct j; discriminate); try (destruct i; discriminate); injection Ha as <-; injection Hb as <-; reflexivity.
Qed.

(** BinsToCutsSorted with these counts: each value gets one more than its bin, 1 if it lies in none, 0 if it is NaN, infinite or a missing value.
    For arrays without gaps, at least two edges, and values that are exact as float64 and not greater than the last edge. *)
Theorem C108_cut_partial : forall unit round junk a bins idx mode,
  0 <= a_dtype a <= 13 -> 0 <= a_len a < 2 ^ 62 -> arg_ok (a_len a) a -> gapless a -> holds unit round (a_dtype a) (arg_vals NaN a) ->
  a_dtype bins = 12 -> 2 <= a_len bins -> arg_ok (a_len bins) bins -> gapless bins -> BinsSpec.strictly_ascending (arg_vals 0 bins) ->
  let vs := map (seen unit (a_dtype a)) (arg_vals NaN a) in
  gapless idx -> sorts idx vs -> - 2 ^ 31 <= mode < 2 ^ 31 ->
  (forall z, In (Fin z) vs -> round 8 z = z /\ z <= nth (Z.to_nat (a_len bins) - 1) (arg_vals 0 bins) 0) ->
  exists r, BinsToCutsSorted unit round junk a bins idx (how_many NaN vs, how_many PInf vs, how_many NInf vs) mode = Done (Some (small_dtype (a_len bins), r)) /\
    Z.of_nat (length r) = a_len a /\
    forall i v, nth_error (arg_vals NaN a) i = Some v -> exists x, nth_error r i = Some x /\ BinsSpec.sorted_bin (arg_vals 0 bins) (seen unit (a_dtype a) v) x.
Proof. intros unit round junk a bins idx mode. exact (sorted_call unit round junk a bins idx mode). Qed.
Print Assumptions C108_cut_partial.
Example C108_cut_ex :
  CutsSorted (nums 12 [Fin 5; NaN; NInf; PInf; NaN; Fin 10; Fin (-2)]) (ints 12 [0; 5; 10]) (ints 7 [2; 6; 0; 5; 3; 1; 4]) (2, 1, 1) 0 = Done (Some (1, [2; 0; 0; 0; 0; 3; 1])) /\
  CutsSorted (nums 1 [Fin 5; Fin (-128); Fin 3]) (ints 12 [0; 3; 10]) (ints 5 [1; 2; 0]) (0, 0, 1) 0 = Done (Some (1, [3; 0; 2])).
Proof. split; vm_compute; reflexivity. Qed.

(** What is refused: one element with another stride, arrays of two lengths; edges that are not float64.  None is returned for types that are not supported. *)
Theorem C108_refused : forall unit round junk,
  (forall a idx, 0 <= a_len a -> 0 <= a_len idx -> arg_ok (a_len a) a -> arg_ok (a_len idx) idx ->
     (a_len a = 1 /\ a_step a <> 1) \/ (a_len idx = 1 /\ a_step idx <> 1) \/ a_len a <> a_len idx -> NanInfCountFromSort unit a idx = Error) /\
  (forall a bins idx n p m mode, ~ (- 2 ^ 31 <= mode < 2 ^ 31) \/ ~ (- 2 ^ 63 <= n < 2 ^ 63) \/ ~ (- 2 ^ 63 <= p < 2 ^ 63) \/ ~ (- 2 ^ 63 <= m < 2 ^ 63) \/ a_dtype bins <> 12 ->
     BinsToCutsSorted unit round junk a bins idx (n, p, m) mode = Error).
Proof. intros. split; [intros; now apply counts_refused|intros; now apply sorted_refused]. Qed.
Print Assumptions C108_refused.
Theorem C108_none : forall unit round junk,
  (forall a idx, 0 <= a_len a -> arg_ok (a_len a) a -> arg_ok (a_len a) idx -> one_by_one a -> one_by_one idx ->
     ~ 0 <= a_dtype a <= 13 \/ ~ In (a_dtype idx) [5; 7; 9] -> NanInfCountFromSort unit a idx = Done None) /\
  (forall a bins idx n p m mode, - 2 ^ 31 <= mode < 2 ^ 31 -> - 2 ^ 63 <= n < 2 ^ 63 -> - 2 ^ 63 <= p < 2 ^ 63 -> - 2 ^ 63 <= m < 2 ^ 63 -> a_dtype bins = 12 ->
     ~ 0 <= a_dtype a <= 13 \/ ~ In (a_dtype idx) [5; 7; 9] -> BinsToCutsSorted unit round junk a bins idx (n, p, m) mode = Done None).
Proof. intros. split; [intros; now apply counts_none|intros; now apply sorted_none]. Qed.
Print Assumptions C108_none.
Example C108_refused_ex : CountsOf (nums 1 [Fin 5; Fin 6]) (ints 7 [0]) = Error /\ CutsSorted (nums 1 [Fin 5]) (ints 11 [0; 5]) (ints 7 [0]) (0, 0, 0) 0 = Error /\
  CountsOf (nums 1 [Fin 5]) (ints 3 [0]) = Done None /\ CutsSorted (nums 18 [Fin 5]) (ints 12 [0; 5]) (ints 7 [0]) (0, 0, 0) 0 = Done None.
Proof. repeat split; vm_compute; reflexivity. Qed.
(** A value above the last edge: the edge after the last one is read.  An index that is shorter than the values, and counts that are greater than the number of values: memory outside of the arrays is read or written *)
Theorem C108_unchecked_refuted :
  CutsSorted (nums 12 [Fin 5; Fin 11]) (ints 12 [0; 5; 10]) (ints 7 [0; 1]) (0, 0, 0) 0 = Undefined /\
  CutsSorted (nums 12 [Fin 5; Fin 10]) (ints 12 [0; 5; 10]) (ints 7 [0]) (0, 0, 0) 0 = Undefined /\
  CutsSorted (nums 12 [Fin 5; Fin 10]) (ints 12 [0; 5; 10]) (ints 7 [0; 1]) (0, 0, 3) 0 = Undefined.
Proof. repeat split; vm_compute; reflexivity. Qed.
Print Assumptions C108_unchecked_refuted.

(** ** C109 *)
(** ReIndex(index, array): row i of the result is row index[i] of the array, whatever its type and the order in which the threads take the blocks.
    If every row of the index is a row of the array. *)
Theorem C109_reindex_partial : forall {X} ord threads chunk (junk zero : X) idx a,
  fair ord -> (0 < chunk)%nat -> 0 <= a_len a < 2 ^ 63 -> arg_ok (a_len a) a -> one_by_one a -> arg_ok (a_len a) idx -> one_by_one idx ->
  In (a_dtype idx) [5; 6; 7; 8; 9; 10] -> (In (a_dtype idx) [5; 6] -> a_len a <= 2 ^ 31) -> a_dtype a <> 17 -> Forall (fun k => 0 <= k < a_len a) (arg_vals 0 idx) ->
  ReIndexCall ord threads chunk junk idx a = Done (Some (a_dtype a, map (fun k => nth (Z.to_nat k) (arg_vals zero a) zero) (arg_vals 0 idx))).
Proof. intros. now apply reindex_call. Qed.
Print Assumptions C109_reindex_partial.
Example C109_reindex_ex : ReIndexCall in_order false 4 (Fin 7) (ints 5 [2; 0; 0]) (nums 12 [Fin 10; Fin 20; NaN]) = Done (Some (12, [NaN; Fin 10; Fin 10])) /\
  ReIndexCall in_order false 4 (Fin 7) (mkArg 7 [2; 9; 0] 0 2 2) (mkArg 12 [Fin 10; Fin 20; NaN] 2 (-1) 2) = Undefined /\
  ReIndexCall in_order false 4 (Fin 7) (mkArg 7 [1; 9; 0] 0 2 2) (mkArg 12 [Fin 10; Fin 20; NaN] 2 (-1) 2) = Done (Some (12, [Fin 20; NaN])).
Proof. repeat split; vm_compute; reflexivity. Qed.
(** What is refused: one element with another stride, two lengths, an index that is not of 32 or 64 bit integers.  None for arrays of objects. *)
Theorem C109_reindex_refused : forall {X} ord threads chunk (junk zero : X) idx a,
  0 <= a_len a -> 0 <= a_len idx -> arg_ok (a_len a) a -> arg_ok (a_len idx) idx ->
  (a_len a = 1 /\ a_step a <> 1) \/ (a_len idx = 1 /\ a_step idx <> 1) \/ a_len a <> a_len idx \/ (a_dtype a <> 17 /\ ~ In (a_dtype idx) [5; 6; 7; 8; 9; 10]) ->
  ReIndexCall ord threads chunk junk idx a = Error.
Proof. intros. now apply (reindex_refused ord threads chunk junk zero). Qed.
Print Assumptions C109_reindex_refused.
Theorem C109_objects : forall {X} ord threads chunk (junk zero : X) idx a,
  0 <= a_len a -> arg_ok (a_len a) a -> one_by_one a -> arg_ok (a_len a) idx -> one_by_one idx -> a_dtype a = 17 -> ReIndexCall ord threads chunk junk idx a = Done None.
Proof. intros. now apply (reindex_none ord threads chunk junk zero). Qed.
Print Assumptions C109_objects.
Example C109_refused_ex : ReIndexCall in_order false 4 (Fin 7) (mkArg 5 [0; 1] 0 2 1) (nums 12 [Fin 10]) = Error /\ ReIndexCall in_order false 4 (Fin 7) (ints 3 [0]) (nums 12 [Fin 10]) = Error /\
  ReIndexCall in_order false 4 (Fin 7) (ints 5 [0; 0]) (nums 12 [Fin 10]) = Error /\ ReIndexCall in_order false 4 (Fin 7) (ints 5 [0]) (nums 17 [Fin 10]) = Done None.
Proof. repeat split; vm_compute; reflexivity. Qed.
(** Rows that are not rows of the array are read all the same *)
Theorem C109_rows_refuted : ReIndexCall in_order false 4 (Fin 7) (ints 5 [2; 0; 3]) (nums 12 [Fin 10; Fin 20; NaN]) = Undefined /\ ReIndexCall in_order false 4 (Fin 7) (ints 5 [0; -1; 0]) (nums 12 [Fin 10; Fin 20; NaN]) = Undefined.
Proof. split; vm_compute; reflexivity. Qed.
Print Assumptions C109_rows_refuted.
(** Row numbers of uint32 are read as int32: from 2^31 on memory before the array is read. *)
Theorem C109_uint32_refuted : forall {X} ord threads chunk (junk zero : X) idx a k, (0 < chunk)%nat -> 0 <= a_len a -> arg_ok (a_len a) a -> one_by_one a -> arg_ok (a_len a) idx ->
  one_by_one idx -> a_dtype idx = 6 -> a_dtype a <> 17 -> In k (arg_vals 0 idx) -> 2 ^ 31 <= k < 2 ^ 32 -> ReIndexCall ord threads chunk junk idx a = Undefined.
Proof. exact @reindex_wide. Qed.
Print Assumptions C109_uint32_refuted.

(** ReMapIndex(array, out, mapper): element i of out is mapper[array[i]], and no other memory changes.  For arrays without gaps and of one length, rows of
    the mapper, and entries that are numbers of the type of out. *)
Theorem C109_remap_partial : forall a out mapper,
  0 <= a_len a -> arg_ok (a_len a) a -> gapless a -> arg_ok (a_len a) out -> gapless out -> 0 <= a_len mapper -> arg_ok (a_len mapper) mapper -> gapless mapper ->
  a_dtype mapper = 5 -> In (a_dtype a) [1; 3; 5; 7; 9] -> In (a_dtype out) [1; 3; 5; 7; 9] -> Forall (fun k => 0 <= k < a_len mapper) (arg_vals 0 a) ->
  Forall (fun m => match int_type (a_dtype out) with Some (lo, hi, _) => lo <= m <= hi | None => False end) (arg_vals 0 mapper) ->
  exists mem, ReMapIndexCall a out mapper = Done mem /\ length mem = length (a_mem out) /\
    arg_vals 0 (mkArg (a_dtype out) mem (a_start out) (a_step out) (a_len out)) = map (fun k => nth (Z.to_nat k) (arg_vals 0 mapper) 0) (arg_vals 0 a) /\
    forall i, (Z.of_nat i < a_start out \/ a_start out + a_len out <= Z.of_nat i) -> nth_error mem i = nth_error (a_mem out) i.
Proof. exact remap_call. Qed.
Print Assumptions C109_remap_partial.
Example C109_remap_ex : ReMapIndexCall (ints 1 [2; 0; 0]) (ints 7 [9; 9; 9]) (ints 5 [10; 20; 30]) = Done [30; 10; 10] /\
  ReMapIndexCall (ints 1 [2; 0]) (mkArg 3 [7; 7; 7; 7] 1 1 2) (ints 5 [10; 20; 300]) = Done [7; 300; 10; 7].
Proof. split; vm_compute; reflexivity. Qed.
(** A mapper that is not of int32 is refused; nothing is written for other types of the array and of out. *)
Theorem C109_remap_refused : forall a out mapper,
  (a_dtype mapper <> 5 -> ReMapIndexCall a out mapper = Error) /\
  (a_dtype mapper = 5 -> ~ In (a_dtype a) [1; 3; 5; 7; 9] \/ ~ In (a_dtype out) [1; 3; 5; 7; 9] -> ReMapIndexCall a out mapper = Done (a_mem out)).
Proof. intros. split; intros; [now apply remap_refused|now apply remap_nothing]. Qed.
Print Assumptions C109_remap_refused.
Example C109_remap_refused_ex : ReMapIndexCall (ints 1 [0]) (ints 7 [9]) (ints 7 [10]) = Error /\ ReMapIndexCall (ints 2 [0]) (ints 7 [9]) (ints 5 [10]) = Done [9].
Proof. split; vm_compute; reflexivity. Qed.
(** An entry that does not fit wraps around; an output that is shorter is written past its end; strides are ignored *)
Theorem C109_remap_refuted :
  ReMapIndexCall (ints 1 [0]) (ints 1 [9]) (ints 5 [300]) = Done [44] /\ ReMapIndexCall (ints 1 [0; 0]) (ints 1 [9]) (ints 5 [30]) = Undefined /\
  (exists out, arg_vals 0 out = [9; 9] /\ ReMapIndexCall (ints 1 [2; 0]) out (ints 5 [10; 20; 30]) = Done [30; 10; 9] /\ a_step out = 2) /\
  (exists a, arg_vals 0 a = [2; 0] /\ ReMapIndexCall a (ints 1 [9; 9]) (ints 5 [10; 20; 30]) = Done [30; 20]).
Proof.
  split; [vm_compute; reflexivity|]. split; [vm_compute; reflexivity|]. split; [exists (mkArg 1 [9; 9; 9] 0 2 2)|exists (mkArg 1 [2; 1; 0] 0 2 2)]; repeat split; vm_compute; reflexivity.
Qed.
Print Assumptions C109_remap_refuted.
