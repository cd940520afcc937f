(** Property C104: GroupFromLexSort from its arguments to its results. *)
From Verif Require Import Base Mem Num SortModel SortSpec AllModel AllSpec EaModel EaSpec LxModel LxSpec Lx3Proofs GlModel GlSpec GlProofs Gl2Proofs Gl3Proofs Gl4Proofs.
Local Open Scope Z_scope.

(** The index that LexSort32 or LexSort64 has made of some columns, and an array with one item for each row that is the same for two rows exactly if
    they are alike in all columns: rows have the same key exactly if they are alike, the keys ascend in the order of the rows, and each group has its
    first row and the number of its rows.  The index stays as it is.
    Missing: items of 7 bytes (C25_seven_refuted), no rows, base_index=0, and a filter, which has no effect (refuted below). *)
Theorem C104_lexsort_partial :
  forall m bits n cs dir cut index junk a size v f b, cs <> [] -> Forall (shaped n) cs -> Forall items_ok cs -> direction_ok (length cs) dir ->
  not_given cut -> not_given index -> (bits = 32 -> n < 2 ^ 31) -> LexSortCall m bits (map OArray cs) cut dir index = Done (arg_vals 0 a) ->
  let cols := combine (directions (length cs) dir) cs in
  0 < n -> index_array n a -> items_array n size v -> size <> 7%nat -> filter_fine (a_len a) f -> from_one b ->
  (forall x y, 0 <= x < n -> 0 <= y < n -> (item_at v x = item_at v y <-> rows_alike cols x y)) ->
  exists g, GroupFromLexSortAll junk a size v cut f b = Done g /\ g_dtype g = key_type a /\ g_uniques g = None /\ g_index g = arg_vals 0 a /\
    grouped (rows_alike cols) n (g_keys g) (g_first g) (g_count g) /\
    forall x y, 0 <= x < n -> 0 <= y < n -> row_before cols x y -> exists kx ky, zrd (g_keys g) x = Some kx /\ zrd (g_keys g) y = Some ky /\ kx < ky.
Proof.
  intros m bits n cs dir cut index junk a size v f b NE HS HI HD NC NX HB HL cols N0 HA HV S7 HF H1 HT.
  destruct (sorted_call m bits n cs dir NE HS HI HD cut index NC NX HB) as (r & E & HO). rewrite HL in E. injection E as <-.
  apply groups_of_order; auto. now apply combined.
Qed.
Print Assumptions C104_lexsort_partial.
Example C104_lexsort_ex :
  let c := icol 5 [30; 10; 30; 20] in let v := mkArg 5 [[30; 0; 0; 0]; [10; 0; 0; 0]; [30; 0; 0; 0]; [20; 0; 0; 0]] 0 1 4 in
  LexSortCall one_thread 64 [OArray c] PNone DNone PNone = Done (arg_vals 0 (block 7 [1; 3; 0; 2])) /\
  GroupFromLexSortAll 9 (block 7 [1; 3; 0; 2]) 4 v PNone PNone None = Done (mkGroups 7 [3; 1; 3; 2] [1; 3; 0] [0; 1; 1; 2] None [1; 3; 0; 2]) /\
  index_array 4 (block 7 [1; 3; 0; 2]) /\ items_array 4 4 v.
Proof.
  cbv zeta. split; [vm_compute; reflexivity|]. split; [vm_compute; reflexivity|]. split.
  - split; [cbn; auto|]. split; [cbn; lia|]. split; [|split; [now left|discriminate]]. split; [reflexivity|]. split; [cbn; lia|]. intros i. cbn. lia.
  - split; [lia|]. split; [|split; [now left|]]; [split; [reflexivity|]; split; [cbn; lia|]; intros i; cbn; lia|].
    match goal with |- Forall _ ?l => change l with [[30; 0; 0; 0]; [10; 0; 0; 0]; [30; 0; 0; 0]; [20; 0; 0; 0]] end. repeat (constructor; [split; [reflexivity|repeat constructor; lia]|]). constructor.
Qed.

(** The same with cutoffs= in both calls, for items of 1, 2, 4 and 8 bytes: groups do not cross partitions, the last array has the numbers of groups
    up to each partition.  The index, which counted from the start of each partition, is changed: it now counts from row 0. *)
Theorem C104_cutoffs_partial :
  forall m bits n cs dir ca index junk a size v f b, cs <> [] -> Forall (shaped n) cs -> Forall items_ok cs -> direction_ok (length cs) dir ->
  cutoffs_given n ca -> not_given index -> fair (t_order m) -> (bits = 32 -> n < 2 ^ 31) -> LexSortCall m bits (map OArray cs) (PArray ca) dir index = Done (arg_vals 0 a) ->
  let cols := combine (directions (length cs) dir) cs in let ends := arg_vals 0 ca in
  index_array n a -> a_len a = n -> items_array n size v -> (size = 1 \/ size = 2 \/ size = 4 \/ size = 8)%nat -> filter_fine (a_len a) f -> from_one b ->
  (forall x y, 0 <= x < n -> 0 <= y < n -> (item_at v x = item_at v y <-> rows_alike cols x y)) ->
  exists g us, GroupFromLexSortAll junk a size v (PArray ca) f b = Done g /\ g_dtype g = key_type a /\ g_uniques g = Some us /\ length us = length ends /\
    (forall k u, nth_error us k = Some u -> u = Z.of_nat (countb (fun i => (partition_of ends i <=? k)%nat) (g_first g))) /\
    (forall i x, nth_error (arg_vals 0 a) i = Some x -> nth_error (g_index g) i = Some (part_start ends (Z.of_nat i) + x)) /\
    grouped (part_alike ends cols) n (g_keys g) (g_first g) (g_count g) /\
    forall x y, 0 <= x < n -> 0 <= y < n -> part_before ends cols x y -> exists kx ky, zrd (g_keys g) x = Some kx /\ zrd (g_keys g) y = Some ky /\ kx < ky.
Proof.
  intros m bits n cs dir ca index junk a size v f b NE HS HI HD HC NX HF HB HL cols ends HA HN HV SZ HFF H1 HT.
  destruct (cutoffs_call m bits n cs dir NE HS HI HD index ca NX HC HF HB) as (r & E & LR & HO). rewrite HL in E. injection E as <-.
  apply (groups_of_parts n cols junk a size v f b); auto. now apply combined.
Qed.
Print Assumptions C104_cutoffs_partial.
Example C104_cutoffs_ex :
  let c := icol 1 [2; 1; 2; 2; 2] in let v := mkArg 1 [[2]; [1]; [2]; [2]; [2]] 0 1 5 in
  LexSortCall one_thread 32 [OArray c] (PArray (block 7 [3; 5])) DNone PNone = Done (arg_vals 0 (block 5 [1; 0; 2; 0; 1])) /\
  GroupFromLexSortAll 9 (block 5 [1; 0; 2; 0; 1]) 1 v (PArray (block 7 [3; 5])) PNone None = Done (mkGroups 5 [2; 1; 2; 3; 3] [1; 0; 3] [0; 1; 2; 2] (Some [2; 3]) [1; 0; 2; 3; 4]) /\
  cutoffs_given 5 (block 7 [3; 5]).
Proof.
  cbv zeta. split; [vm_compute; reflexivity|]. split; [vm_compute; reflexivity|]. split; [now left|]. split; [cbn; lia|]. split; [|split; [now left|]].
  - split; [reflexivity|]. split; [cbn; lia|]. intros i. cbn. lia.
  - change (arg_vals 0 (block 7 [3; 5])) with [3; 5]. cbn [cutoffs_ok]. lia.
Qed.

(** An index of any of the rows in the order of their items, given by whatever order makes different items different: its runs are the groups.
    Rows that are not in the index have no key: their elements are what was in memory. *)
Theorem C104_listed_partial :
  forall n junk a size v cut f b lt, index_array n a -> items_array n size v -> size <> 7%nat -> not_given cut -> filter_fine (a_len a) f -> from_one b ->
  0 < a_len a -> Forall (fun x => 0 <= x < n) (arg_vals 0 a) ->
  (forall x y, In x (arg_vals [] v) -> In y (arg_vals [] v) -> lt x y = false -> lt y x = false -> x = y) -> sorted lt (map (item_at v) (arg_vals 0 a)) ->
  exists g, GroupFromLexSortAll junk a size v cut f b = Done g /\ g_dtype g = key_type a /\ g_index g = arg_vals 0 a /\
    length (g_keys g) = Z.to_nat n /\ length (g_count g) = S (length (g_first g)) /\ nth_error (g_count g) 0 = Some 0 /\
    grouping (item_at v) 1 1 (arg_vals 0 a) (g_keys g) (g_first g) (g_count g) /\
    (forall x, 0 <= x < n -> ~ In x (arg_vals 0 a) -> zrd (g_keys g) x = Some junk).
Proof. exact listed_groups. Qed.
Print Assumptions C104_listed_partial.
Example C104_listed_ex :
  GroupFromLexSortAll 9 (block 5 [3; 0; 4]) 3 (mkArg 18 [[98; 0; 0]; [0; 0; 0]; [99; 0; 0]; [97; 98; 99]; [98; 0; 0]] 0 1 5) PNone PNone (Some 5) =
    Done (mkGroups 5 [2; 9; 9; 1; 2] [3; 0] [0; 1; 2] None [3; 0; 4]) /\
  sorted (STRING_LT true) (map (item_at (mkArg 18 [[98; 0; 0]; [0; 0; 0]; [99; 0; 0]; [97; 98; 99]; [98; 0; 0]] 0 1 5)) [3; 0; 4]).
Proof.
  split; [vm_compute; reflexivity|]. intros i j x y Hij Hx Hy. destruct i as [|[|[|i]]], j as [|[|[|j]]]; try lia; cbn in Hx, Hy; try discriminate; try (destruct i; discriminate); try (destruct j; discriminate);
    injection Hx as <-; injection Hy as <-; reflexivity.
Qed.

(** What is refused: an index longer than the values, or of another type than int32 and int64; cutoffs that are not int64, or do not end with the length
    of the index; a filter of bools of another length; a base index that is no long. *)
Theorem C104_refused :
  (forall junk a size v cut f b, a_len v < a_len a \/ ~ In (a_dtype a) [5; 7; 9] -> GroupFromLexSortAll junk a size v cut f b = Error) /\
  (forall n junk a size v f b, index_array n a -> items_array n size v ->
     (forall c, ~ In (a_dtype c) [7; 9] -> GroupFromLexSortAll junk a size v (PArray c) f b = Error) /\
     (forall c x, arg_ok (a_len c) c -> gapless c -> 0 < a_len c -> nth_error (arg_vals 0 c) (Z.to_nat (a_len c - 1)) = Some x -> x <> a_len a ->
        GroupFromLexSortAll junk a size v (PArray c) f b = Error) /\
     (forall cut c, cut_fine (a_len a) cut -> a_dtype c = 0 -> a_len c <> a_len a -> GroupFromLexSortAll junk a size v cut (PArray c) b = Error) /\
     (forall cut z, cut_fine (a_len a) cut -> ~ long z -> GroupFromLexSortAll junk a size v cut f (Some z) = Error)).
Proof. exact refused_groups. Qed.
Print Assumptions C104_refused.
Example C104_refused_ex : GroupFromLexSortAll 9 (block 7 [0; 1]) 1 (mkArg 1 [[1]; [2]] 0 1 2) (PArray (block 7 [1])) PNone None = Error /\
  GroupFromLexSortAll 9 (block 7 [0; 1]) 1 (mkArg 1 [[1]; [2]] 0 1 2) PNone (PArray (mkArg 0 [true] 0 1 1)) None = Error.
Proof. split; vm_compute; reflexivity. Qed.

(** The filter has no effect: a row that is filtered out is in a group like the others, and counted there. *)
Theorem C104_filter_refuted :
  exists a v f g, index_array 2 a /\ items_array 2 1 v /\ arg_ok 2 f /\ gapless f /\ arg_vals true f = [true; false] /\
    GroupFromLexSortAll 9 a 1 v PNone (PArray f) None = Done g /\ zrd (g_keys g) 1 <> Some 0 /\ nth_error (g_count g) 0 = Some 0.
Proof. exact filter_ignored. Qed.
Print Assumptions C104_filter_refuted.

(** An index with gaps between its elements is read as if there were none: row 1, which is listed, gets no key (9 is what was in memory). *)
Theorem C104_strided_refuted :
  exists a v g, In (a_dtype a) [5; 7; 9] /\ arg_ok 2 a /\ arg_vals 0 a = [0; 1] /\ items_array 2 1 v /\
    GroupFromLexSortAll 9 a 1 v PNone PNone None = Done g /\ zrd (g_keys g) 1 = Some 9.
Proof. exact gaps_ignored. Qed.
Print Assumptions C104_strided_refuted.

(** Memory outside of the arrays, or that was never written, is used: rows outside of the values; empty cutoffs; text of 3 bytes with cutoffs=; the
    last count with base_index=0; the count of an empty index. *)
Theorem C104_undefined_refuted :
  GroupFromLexSortAll 9 (block 7 [5]) 1 (mkArg 1 [[1]] 0 1 1) PNone PNone None = Undefined /\
  GroupFromLexSortAll 9 (block 7 [0]) 1 (mkArg 1 [[1]] 0 1 1) (PArray (block 7 [])) PNone None = Undefined /\
  GroupFromLexSortAll 9 (block 7 [0]) 3 (mkArg 18 [[1; 1; 1]] 0 1 1) (PArray (block 7 [1])) PNone None = Undefined /\
  GroupFromLexSortAll 9 (block 7 [0]) 1 (mkArg 1 [[1]] 0 1 1) PNone PNone (Some 0) = Done (mkGroups 7 [0] [0] [1; 9] None [0]) /\
  GroupFromLexSortAll 9 (block 7 []) 1 (mkArg 1 [] 0 1 0) PNone PNone None = Done (mkGroups 7 [] [] [9] None []).
Proof. split; [vm_compute; reflexivity|]. split; [vm_compute; reflexivity|]. split; [vm_compute; reflexivity|]. split; vm_compute; reflexivity. Qed.
Print Assumptions C104_undefined_refuted.

(** The call changes its argument: the index that was given is another one afterwards. *)
Theorem C104_argument_refuted :
  exists a v g, index_array 2 a /\ items_array 2 1 v /\ GroupFromLexSortAll 9 a 1 v (PArray (block 7 [1; 2])) PNone None = Done g /\ g_index g <> arg_vals 0 a.
Proof. exact index_changed. Qed.
Print Assumptions C104_argument_refuted.
