(** Property theorems for bin counts, packed groups and next-row links (C14, C15, C19, C40). *)
From Verif Require Import Base Mem Inter GroupModel GroupSpec GroupProofs Group2Proofs Group3Proofs.
Local Open Scope Z_scope.

(** C14.  For every interleaving [ops] of the workers' steps on the shared cursor array.  The counts are the
    histogram of the keys, as returned by BinCount; rows whose key is outside the bins are left out. *)
Theorem C14_group_from_bincount :
  forall threading futex keys ncount ops junk,
  0 < futex -> histogram (Z.of_nat (length ncount)) keys ncount -> length junk = length keys ->
  interleave (gfb_programs threading futex keys ncount) ops ->
  exists igroup ifirst, GroupFromBinCount ops ncount junk = Some (igroup, ifirst) /\
    packed_rows (Z.of_nat (length ncount)) keys ncount igroup ifirst /\
    (all_in_range (Z.of_nat (length ncount)) keys -> all_rows keys igroup).
Proof. exact group_from_bincount. Qed.
Print Assumptions C14_group_from_bincount.

(** Keys [1;0;2;0;1;1]; two workers own bins 0-1 and bin 2; the second one runs between the steps of the first. *)
Example C14_example :
  let keys := [1; 0; 2; 0; 1; 1] in
  let ops := [Row 0 1; Row 2 2; Row 1 0; Row 3 0; Fix 2; Row 4 1; Row 5 1; Fix 0; Fix 1] in
  histogram 3 keys [2; 3; 1] /\ interleave [band_ops keys 0 2; band_ops keys 2 3] ops /\
  interleave (gfb_programs false 1 keys [2; 3; 1]) (band_ops keys 0 3) /\
  GroupFromBinCount ops [2; 3; 1] (repeat 9 6) = Some ([1; 3; 0; 4; 5; 2], [0; 2; 5]) /\
  GroupFromBinCount (band_ops keys 0 3) [2; 3; 1] (repeat 9 6) = Some ([1; 3; 0; 4; 5; 2], [0; 2; 5]).
Proof.
  intros keys ops. split.
  { split; [reflexivity|]. intros g Hg. assert (g = 0 \/ g = 1 \/ g = 2) as [-> | [-> | ->]] by lia; reflexivity. }
  split.
  { unfold band_ops, ops, keys. simpl.
    apply (il_step _ 0 (Row 0 1) [Row 1 0; Row 3 0; Row 4 1; Row 5 1; Fix 0; Fix 1]); [reflexivity|]. simpl.
    apply (il_step _ 1 (Row 2 2) [Fix 2]); [reflexivity|]. simpl.
    do 2 (eapply (il_step _ 0); [reflexivity|]; simpl).
    eapply (il_step _ 1); [reflexivity|]; simpl.
    do 4 (eapply (il_step _ 0); [reflexivity|]; simpl).
    apply il_nil. simpl. intuition. }
  split; [|split; vm_compute; reflexivity].
  unfold gfb_programs, gfb_bands. simpl.
  do 9 (eapply (il_step _ 0); [reflexivity|]; simpl). apply il_nil. simpl. intuition.
Qed.

(** C15.  Counts only. *)
Theorem C15_bincount_counts :
  forall ord thr futex keys n junk, 0 < futex -> (0 < n)%nat -> keys <> [] ->
  exists ncount, BinCount ord thr false futex keys (Z.of_nat n) junk = BC_counts ncount /\ histogram (Z.of_nat n) keys ncount.
Proof. exact bincount_counts. Qed.
Print Assumptions C15_bincount_counts.

(** C15.  Counts and packed rows, for every number of threads and every order of the writes to iGroup. *)
Theorem C15_bincount_packed :
  forall ord thr futex keys n junk, fair ord -> 0 < futex -> (0 < n)%nat -> keys <> [] -> length junk = length keys ->
  exists ncount igroup ifirst,
    BinCount ord thr true futex keys (Z.of_nat n) junk = BC_packed ncount igroup ifirst /\
    histogram (Z.of_nat n) keys ncount /\ packed_rows (Z.of_nat n) keys ncount igroup ifirst /\
    (all_in_range (Z.of_nat n) keys -> all_rows keys igroup).
Proof. exact bincount_packed. Qed.
Print Assumptions C15_bincount_packed.

(** C15.  No rows or no bins: an error. *)
Theorem C15_bincount_rejects_empty :
  forall ord thr pack futex keys n junk, keys = [] \/ n = 0 -> BinCount ord thr pack futex keys n junk = BC_error.
Proof. exact bincount_rejects. Qed.
Print Assumptions C15_bincount_rejects_empty.

Example C15_example :
  BinCount (fun B => @rev B) true true 3 [1; 0; 2; 0; 1; 1; 7; -1] 3 (repeat 99 8) = BC_packed [2; 3; 1] [1; 3; 0; 4; 5; 2; 99; 99] [0; 2; 5] /\
  BinCount in_order true false 3 [1; 0; 2; 0; 1; 1; 7; -1] 3 (repeat 99 8) = BC_counts [2; 3; 1].
Proof. vm_compute. split; reflexivity. Qed.

(** C19.  Guards: all keys are in range and the row numbers fit the type of the keys, which is also the type
    of the result. *)
Theorem C19_make_inext_partial :
  forall w prev keys unique_rows junk,
  0 < w -> 0 <= unique_rows -> all_in_range (unique_rows + 1) keys -> length junk = length keys -> Z.of_nat (length keys) <= 2 ^ (w - 1) ->
  exists res, MakeiNext w prev keys unique_rows junk = Some res /\ length res = length keys /\
    forall i, (i < length keys)%nat -> exists r, nth_error res i = Some r /\
      if prev then prev_same keys (- 2 ^ (w - 1)) i r else next_same keys (- 2 ^ (w - 1)) i r.
Proof. exact make_inext. Qed.
Print Assumptions C19_make_inext_partial.

Example C19_example :
  MakeiNext 8 false [1; 0; 2; 0; 1; 1] 2 (repeat 99 6) = Some [4; 3; -128; -128; 5; -128] /\
  MakeiNext 8 true [1; 0; 2; 0; 1; 1] 2 (repeat 99 6) = Some [-128; -128; -128; 1; 0; 4].
Proof. vm_compute. split; reflexivity. Qed.

(** int8 keys and more than 128 rows: the row number 128 is stored as -128, the mark for "no such row". *)
Theorem C19_row_number_truncated_refuted :
  exists keys res, all_in_range 2 keys /\ MakeiNext 8 false keys 1 (repeat 0 (length keys)) = Some res /\
    exists r, nth_error res 127 = Some r /\ ~ next_same keys (- 2 ^ 7) 127 r.
Proof. exact inext_truncated. Qed.
Print Assumptions C19_row_number_truncated_refuted.

(** A row whose key is out of range is not written at all: the result depends on the memory it was given. *)
Theorem C19_out_of_range_uninitialised_refuted :
  forall j, MakeiNext 8 false [5] 1 [j] = Some [j].
Proof. exact (fun j => eq_refl). Qed.
Print Assumptions C19_out_of_range_uninitialised_refuted.

(** C40.  Without a next array.  Guards: at least one row and keys in range; bin 0 holds the filtered rows. *)
Theorem C40_group_by_pack_partial :
  forall keys numUnique sjunk fjunk cjunk njunk,
  0 <= numUnique -> keys <> [] -> all_in_range (numUnique + 1) keys ->
  length sjunk = length keys -> length njunk = length keys ->
  Z.of_nat (length fjunk) = numUnique + 1 -> Z.of_nat (length cjunk) = numUnique + 1 ->
  exists p, GroupByPack32 keys numUnique sjunk fjunk cjunk njunk = Some p /\
    histogram (numUnique + 1) keys (p_count p) /\
    packed_rows (numUnique + 1) keys (p_count p) (p_sort p) (p_first p) /\ all_rows keys (p_sort p).
Proof. exact group_by_pack. Qed.
Print Assumptions C40_group_by_pack_partial.

Example C40_example :
  GroupByPack32 [1; 0; 2; 0; 1; 1] 2 (repeat 9 6) (repeat 9 3) (repeat 9 3) (repeat 9 6)
  = Some (mkPacked [1; 3; 0; 4; 5; 2] [0; 2; 5] [2; 3; 1] 6).
Proof. vm_compute. reflexivity. Qed.

(** No rows: element 0 of the empty result is written. *)
Theorem C40_no_rows_refuted :
  forall n fjunk cjunk, GroupByPack32 [] n [] fjunk cjunk [] = None.
Proof. exact (fun n fjunk cjunk => eq_refl). Qed.
Print Assumptions C40_no_rows_refuted.

(** The keys are not range-checked, unlike in MakeiNext. *)
Theorem C40_key_out_of_range_refuted :
  exists keys n, 0 <= n /\ keys <> [] /\
    GroupByPack32 keys n (repeat 0 (length keys)) (repeat 0 (Z.to_nat n + 1)) (repeat 0 (Z.to_nat n + 1)) (repeat 0 (length keys)) = None.
Proof. exact pack_out_of_range. Qed.
Print Assumptions C40_key_out_of_range_refuted.

(** With a next array the heads are searched in row order: if the groups are not numbered by first occurrence,
    a group is left out and its first and count are what the memory held before. *)
Theorem C40_next_mode_needs_first_occurrence_order_refuted :
  forall f c, GroupByPack32_next [2; 1] [-1; -1] 2 [0; 0] [0; 0; f] [0; 0; c] = Some (mkPacked [1; 0] [-1; 0; f] [0; 1; c] 1).
Proof. exact (fun f c => eq_refl). Qed.
Print Assumptions C40_next_mode_needs_first_occurrence_order_refuted.
