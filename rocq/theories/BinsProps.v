(** Property theorems for searchsorted, cutting into bins and re-indexing (C09, C10, C39, C41, C42). *)
From Verif Require Import Base Mem Num BinsModel BinsSpec BinsProofs Bins2Proofs Bins3Proofs.
Local Open Scope Z_scope.

(** C09.  For every value (NaN and infinities included), every chunking and every schedule.  Guards: at least
    one edge, at most 2^30 edges (or so many that 64-bit arithmetic is used), and conversions between the value
    and the edge type that preserve comparisons (the identity when the types agree). *)
Theorem C09_searchsorted_right_partial :
  forall castT castB ord thr c vals edges d,
  fair ord -> (0 < c)%nat -> edges_ok (Z.of_nat (length edges)) -> ascending edges -> casts_agree castT castB edges ->
  SearchSorted castT castB true ord thr c vals edges d = Some (map (fun v => count_le edges (conv castB v)) vals).
Proof. exact (fun castT castB => search_sorted castT castB true). Qed.
Print Assumptions C09_searchsorted_right_partial.

Theorem C09_searchsorted_left_partial :
  forall castT castB ord thr c vals edges d,
  fair ord -> (0 < c)%nat -> edges_ok (Z.of_nat (length edges)) -> ascending edges -> casts_agree castT castB edges ->
  SearchSorted castT castB false ord thr c vals edges d = Some (map (fun v => count_lt edges (conv castB v)) vals).
Proof. exact (fun castT castB => search_sorted castT castB false). Qed.
Print Assumptions C09_searchsorted_left_partial.

Example C09_example :
  SearchSorted (fun z => z) (fun z => z) true (fun B => @rev B) true 2 [Fin 2; NaN; Fin 5; NInf; PInf; Fin 3; Fin 1] [1; 2; 2; 2; 5; 7] 0
    = Some [4; 6; 5; 0; 6; 4; 1] /\
  SearchSorted (fun z => z) (fun z => z) false (fun B => @rev B) true 2 [Fin 2; NaN; Fin 5; NInf; PInf; Fin 3; Fin 1] [1; 2; 2; 2; 5; 7] 0
    = Some [1; 6; 4; 0; 6; 4; 0].
Proof. vm_compute. split; reflexivity. Qed.

(** Integer values, fractional edges: the edges are truncated for the range test.  Edges 0.5 and 1.5 (in
    halves: 1 and 3), value 1, right: 2 is returned instead of 1. *)
Theorem C09_right_truncated_edges_refuted :
  exists vals edges, ascending edges /\
    SearchSorted trunc_half half_up true in_order false CHUNK vals edges 0 <> Some (map (fun v => count_le edges (conv half_up v)) vals).
Proof. exact search_right_trunc. Qed.
Print Assumptions C09_right_truncated_edges_refuted.

Theorem C09_left_truncated_edges_refuted :
  exists vals edges, ascending edges /\
    SearchSorted trunc_half half_up false in_order false CHUNK vals edges 0 <> Some (map (fun v => count_lt edges (conv half_up v)) vals).
Proof. exact search_left_trunc. Qed.
Print Assumptions C09_left_truncated_edges_refuted.

(** No edges: element -1 of the edges is read. *)
Theorem C09_no_edges_refuted :
  forall castT castB right v d, SearchSorted castT castB right in_order false CHUNK [v] [] d = None.
Proof. exact search_empty. Qed.
Print Assumptions C09_no_edges_refuted.

(** Two billion edges: first + last overflows the 32-bit type. *)
Theorem C09_midpoint_overflow_refuted :
  exists edges v, ascending edges /\ Z.of_nat (length edges) = 2000000000 /\
  search_right (fun z => z) (fun z => z) edges v = None.
Proof. exact search_overflow. Qed.
Print Assumptions C09_midpoint_overflow_refuted.

(** C10.  [ok] marks the valid values: different from the type's invalid value, or finite.  Result 0: not
    valid, or in no bin. *)
Theorem C10_cut_into_bins_partial :
  forall castT castB ok ord thr c vals edges d,
  fair ord -> (0 < c)%nat -> edges_ok (Z.of_nat (length edges)) -> strictly_ascending edges -> casts_agree castT castB edges ->
  ok NaN = false ->
  exists r, CutBSearch castT castB ok ord thr c vals edges d = Some r /\ length r = length vals /\
    forall i v, nth_error vals i = Some v -> exists x, nth_error r i = Some x /\ 0 <= x /\
      forall b, 1 <= b -> (x = b <-> ok v = true /\ in_bin edges (conv castB v) b).
Proof. exact cut_bsearch. Qed.
Print Assumptions C10_cut_into_bins_partial.

Example C10_example :
  CutBSearch (fun z => z) (fun z => z) is_finite (fun B => @rev B) true 2
    [Fin 0; Fin 1; Fin 5; Fin 10; Fin 11; Fin 20; Fin 21; Fin (-1); NaN; PInf] [0; 5; 10; 20] 7
  = Some [1; 1; 1; 2; 3; 3; 0; 0; 0; 0].
Proof. vm_compute. reflexivity. Qed.

(** Integer 0 with edges 0.5, 1.5 is put in bin 1 although it is below the first edge. *)
Theorem C10_truncated_edges_refuted :
  exists v edges, strictly_ascending edges /\ cut_one trunc_half half_up is_finite edges v = Some 1 /\ ~ in_bin edges (conv half_up v) 1.
Proof. exact cut_trunc_wrong. Qed.
Print Assumptions C10_truncated_edges_refuted.

(** Integer 0 with the single edge -0.5: the edges are read out of bounds. *)
Theorem C10_truncated_edges_out_of_bounds_refuted :
  exists v edges, edges <> [] /\ cut_one trunc_half half_up is_finite edges v = None.
Proof. exact cut_trunc_oob. Qed.
Print Assumptions C10_truncated_edges_out_of_bounds_refuted.

(** C39, re-indexing by rows. *)
Theorem C39_reindex_gathers :
  forall (A : Type) ord thr c w (vals : list A) idx d dv, fair ord -> (0 < c)%nat -> 0 < w ->
  (forall k, In k idx -> 0 <= k < Z.of_nat (length vals) /\ k < 2 ^ (w - 1)) ->
  ReIndex ord thr c w vals idx d = Some (map (fun k => nth (Z.to_nat k) vals dv) idx).
Proof. exact @reindex. Qed.
Print Assumptions C39_reindex_gathers.

Theorem C39_remap_index :
  forall w inp mapper out dv, 0 < w -> length out = length inp ->
  (forall k, In k inp -> 0 <= k < Z.of_nat (length mapper)) ->
  (forall m, In m mapper -> - 2 ^ (w - 1) <= m < 2 ^ (w - 1)) ->
  ReMapIndex w inp mapper out = Some (map (fun k => nth (Z.to_nat k) mapper dv) inp).
Proof. exact remap_index. Qed.
Print Assumptions C39_remap_index.

Example C39_reindex_example :
  ReIndex (fun B => @rev B) true 2 32 [10; 20; 30] [2; 0; 0; 1; 2] 0 = Some [30; 10; 10; 20; 30] /\
  ReMapIndex 8 [0; 1; 3; 1] [1; 2; 5; 6] [9; 9; 9; 9] = Some [1; 2; 6; 2].
Proof. vm_compute. split; reflexivity. Qed.

(** C41.  Cutting with a sort index.  Guard: no finite value above the last edge. *)
Theorem C41_cut_with_sort_index_partial :
  forall vals edges sidx nan pos neg out,
  length out = length vals -> Permutation sidx (map Z.of_nat (seq 0 (length vals))) -> sorted_by_index vals sidx ->
  NanInfCount (map (value_at vals) sidx) = (nan, pos, neg) ->
  strictly_ascending edges -> (2 <= length edges)%nat ->
  (forall z el, In (Fin z) vals -> nth_error edges (length edges - 1) = Some el -> z <= el) ->
  exists out', MakeBinsSorted vals edges sidx nan pos neg out = Some out' /\ length out' = length vals /\
    forall i v, nth_error vals i = Some v -> exists r, nth_error out' i = Some r /\ sorted_bin edges v r.
Proof. exact make_bins_sorted. Qed.
Print Assumptions C41_cut_with_sort_index_partial.

Example C41_example :
  let vals := [Fin 5; NaN; Fin 0; NInf; Fin 7; PInf; Fin (-3); Fin 20; Fin 0] in
  let sidx := [3; 6; 2; 8; 0; 4; 7; 5; 1] in
  NanInfCount (map (value_at vals) sidx) = (1, 1, 1)%nat /\
  MakeBinsSorted vals [0; 5; 10; 20] sidx 1 1 1 (repeat (-9) 9) = Some [2; 0; 2; 0; 3; 0; 1; 4; 2].
Proof. vm_compute. split; reflexivity. Qed.

(** A value above the last edge: the edge after the last one is read. *)
Theorem C41_value_above_last_edge_refuted :
  exists vals edges sidx nan pos neg, strictly_ascending edges /\ (2 <= length edges)%nat /\
    Permutation sidx (map Z.of_nat (seq 0 (length vals))) /\ sorted_by_index vals sidx /\
    NanInfCount (map (value_at vals) sidx) = (nan, pos, neg) /\
    forall out, MakeBinsSorted vals edges sidx nan pos neg out = None.
Proof. exact make_bins_sorted_oob. Qed.
Print Assumptions C41_value_above_last_edge_refuted.

(** C42.  Comparison of zero-padded strings of any two widths. *)
Theorem C42_string_comparisons :
  forall s1 s2, good_string s1 -> good_string s2 ->
  STRING_LT s1 s2 = match lex (text s1) (text s2) with Lt => true | _ => false end /\
  STRING_LTEQ s1 s2 = match lex (text s1) (text s2) with Gt => false | _ => true end /\
  STRING_GT s1 s2 = match lex (text s1) (text s2) with Gt => true | _ => false end /\
  STRING_GTEQ s1 s2 = match lex (text s1) (text s2) with Lt => false | _ => true end.
Proof. exact string_compare. Qed.
Print Assumptions C42_string_comparisons.

(** C42.  Cutting strings.  Guard: one call for the whole array, or strings of one byte. *)
Theorem C42_cut_strings_partial :
  forall ord thr c buf isz n edges d,
  fair ord -> (0 < c)%nat -> (thr = false \/ isz = 1) -> 0 <= isz -> Z.of_nat (length buf) = Z.of_nat n * isz ->
  edges_ok (Z.of_nat (length edges)) -> texts_ascending edges -> (forall e, In e edges -> good_string e) ->
  (forall i, (i < n)%nat -> good_string (firstn (Z.to_nat isz) (skipn (i * Z.to_nat isz) buf))) ->
  exists r, CutString ord thr c buf isz n edges d = Some r /\ length r = n /\
    forall i, (i < n)%nat -> exists x, nth_error r i = Some x /\ 0 <= x /\
      let v := text (firstn (Z.to_nat isz) (skipn (i * Z.to_nat isz) buf)) in
      forall b, 1 <= b -> (x = b <-> v <> [] /\ text_in_bin (map text edges) v b).
Proof. exact cut_string_array. Qed.
Print Assumptions C42_cut_strings_partial.

Example C42_example :
  CutString in_order false 2 [97; 98; 97; 97; 99; 0; 0; 0; 122; 122] 2 5 [[97; 97; 0]; [98; 98; 98]; [122; 0; 0]] 9 = Some [1; 1; 2; 0; 0] /\
  STRING_LT [97] [97; 0; 0] = false /\ STRING_LT [97] [97; 98] = true.
Proof. vm_compute. repeat split; reflexivity. Qed.

(** Several chunks: strings "ab" "ab" "cd" "cd", chunks of two.  The second chunk reads rows 1, 2. *)
Theorem C42_threaded_cut_refuted :
  exists buf isz n edges c, (0 < c)%nat /\ 0 < isz /\ Z.of_nat (length buf) = Z.of_nat n * isz /\ texts_ascending edges /\
    CutString in_order true c buf isz n edges 0 <> CutString in_order false c buf isz n edges 0 /\
    CutString in_order true c buf isz n edges 0 <> None.
Proof. exact cut_string_threaded. Qed.
Print Assumptions C42_threaded_cut_refuted.
