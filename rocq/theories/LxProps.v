(** Property C103: LexSort32 and LexSort64 from their arguments to their results. *)
From Verif Require Import Base Mem Num SortModel SortSpec AllModel AllSpec AllProofs All4Proofs EaModel EaSpec Ea3Proofs LxModel LxSpec LxProofs Lx2Proofs Lx3Proofs.
Local Open Scope Z_scope.

(** Without index= and cutoffs= the result has the rows 0 .. n-1 in the order of the columns, the last column first, each in its direction, for
    every order in which the threads work.  Columns of other types than numbers and text do not count.
    Missing: raw bytes (C51), directions that are no array of bool without gaps (refuted below), and the cases below. *)
Theorem C103_sorted_partial :
  forall m bits n cs dir cut index, cs <> [] -> Forall (shaped n) cs -> Forall items_ok cs -> direction_ok (length cs) dir ->
  not_given cut -> not_given index -> (bits = 32 -> n < 2 ^ 31) ->
  exists r, LexSortCall m bits (map OArray cs) cut dir index = Done r /\ in_row_order (combine (directions (length cs) dir) cs) 0 n r.
Proof. intros m bits n cs dir cut index NE HS HI HD HC HX HB. now apply sorted_call. Qed.
Print Assumptions C103_sorted_partial.
Example C103_sorted_ex :
  let cs := [icol 7 [1; 2; 3; 4; 5]; fcol [Fin 7; NaN; Fin 7; Fin 6; NaN]; tcol 1 [[98]; [97]; [98]; [98]; [97]]] in
  LexSortCall one_thread 32 (map OArray cs) PNone (DArray (block 0 [0; 1; 1])) PNone = Done [4; 1; 3; 2; 0] /\
  LexSortCall one_thread 32 (map OArray cs) PNone (DBool false) PNone = Done [2; 0; 3; 4; 1] /\
  Forall (shaped 5) [icol 7 [1; 2; 3; 4; 5]; fcol [Fin 7; NaN; Fin 7; Fin 6; NaN]] /\ items_ok (tcol 1 [[98]; [97]]) /\ direction_ok 3 (DArray (block 0 [0; 1; 1])).
Proof.
  cbv zeta. split; [vm_compute; reflexivity|]. split; [vm_compute; reflexivity|]. split; [repeat constructor; cbn; lia|]. split.
  - split; [discriminate|]. cbn [tcol c_dtype]. split; [lia|]. split; [lia|]. intros _. exists 1%nat, [[98]; [97]]. split; [reflexivity|]. repeat constructor.
  - split; [reflexivity|]. split; [|split; [now left|cbn; repeat constructor; lia]]. split; [reflexivity|]. split; [cbn; lia|]. intros i. cbn. lia.
Qed.

(** With index= the given rows are sorted, in the array that was given; rows that are alike stay in the order of the index. *)
Theorem C103_index_partial :
  forall m bits n cs dir cut a, cs <> [] -> Forall (shaped n) cs -> Forall items_ok cs -> direction_ok (length cs) dir ->
  not_given cut -> index_given bits n a -> bits = 32 \/ bits = 64 -> (bits = 32 -> a_len a < 2 ^ 31) ->
  exists r, LexSortCall m bits (map OArray cs) cut dir (PArray a) = Done r /\ index_order (combine (directions (length cs) dir) cs) (arg_vals 0 a) r.
Proof. intros m bits n cs dir cut a NE HS HI HD HC HX HW HB. now apply (index_call m bits n). Qed.
Print Assumptions C103_index_partial.
Example C103_index_ex : LexSortCall one_thread 64 [OArray (icol 7 [30; 10; 20; 10])] PNone DNone (PArray (block 7 [3; 0; 1])) = Done [3; 1; 0] /\ index_given 64 4 (block 7 [3; 0; 1]).
Proof.
  split; [vm_compute; reflexivity|]. split; [now left|]. split; [cbn; lia|]. split; [|split; [now left|]].
  - split; [reflexivity|]. split; [cbn; lia|]. intros i. cbn. lia.
  - change (arg_vals 0 (block 7 [3; 0; 1])) with [3; 0; 1]. constructor; [lia|]. constructor; [lia|]. constructor; [lia|]. constructor.
Qed.

(** With cutoffs= each partition is sorted by itself, in every order of the partitions; rows count from the start of the partition. *)
Theorem C103_cutoffs_partial :
  forall m bits n cs dir index a, cs <> [] -> Forall (shaped n) cs -> Forall items_ok cs -> direction_ok (length cs) dir ->
  not_given index -> cutoffs_given n a -> fair (t_order m) -> (bits = 32 -> n < 2 ^ 31) ->
  exists r, LexSortCall m bits (map OArray cs) (PArray a) dir index = Done r /\ length r = Z.to_nat n /\
    forall k e, nth_error (arg_vals 0 a) k = Some e -> let s := match k with O => 0 | S k' => nth k' (arg_vals 0 a) 0 end in
      in_row_order (combine (directions (length cs) dir) cs) s (e - s) (firstn (Z.to_nat (e - s)) (skipn (Z.to_nat s) r)).
Proof. intros m bits n cs dir index a NE HS HI HD HX HC HF HB. now apply cutoffs_call. Qed.
Print Assumptions C103_cutoffs_partial.
Example C103_cutoffs_ex : LexSortCall (mkThreads true (fun _ _ => 3%nat) (fun _ l => rev l) (fun _ => 5)) 64 [OArray (icol 5 [30; 10; 20; 10; 0])] (PArray (block 7 [2; 2; 5])) DNone PNone = Done [1; 0; 2; 1; 0] /\
  cutoffs_given 5 (block 7 [2; 2; 5]).
Proof.
  split; [vm_compute; reflexivity|]. split; [now left|]. split; [cbn; lia|]. split; [|split; [now left|]].
  - split; [reflexivity|]. split; [cbn; lia|]. intros i. cbn. lia.
  - change (arg_vals 0 (block 7 [2; 2; 5])) with [2; 2; 5]. cbn [cutoffs_ok]. lia.
Qed.

(** What is refused: columns that are no arrays of one dimension, or of different lengths; cutoffs that are not int64, or do not end with the
    number of rows; directions for another number of columns; an index that is not of the integer type of the result, or is longer than the columns. *)
Theorem C103_refused :
  (forall m bits n cs o rest cut dir index, Forall (shaped n) cs -> o = OOther \/ (exists c, o = OArray c /\ (c_dtype c = -1 \/ c_ndim c <> 0 /\ c_ndim c <> 1)) ->
     LexSortCall m bits (map OArray cs ++ o :: rest) cut dir index = Error) /\
  (forall m bits c c' n n' cut dir index, shaped n c -> shaped n' c' -> n <> n' -> LexSortCall m bits [OArray c; OArray c'] cut dir index = Error) /\
  (forall m bits n cs cut dir index, cs <> [] -> Forall (shaped n) cs ->
     (forall a, a_dtype a <> 7 -> a_dtype a <> 9 -> direction_ok (length cs) dir -> LexSortCall m bits (map OArray cs) (PArray a) dir index = Error) /\
     (forall a x, arg_ok (a_len a) a -> gapless a -> 0 < a_len a -> nth_error (arg_vals 0 a) (Z.to_nat (a_len a - 1)) = Some x -> x <> n -> direction_ok (length cs) dir ->
        LexSortCall m bits (map OArray cs) (PArray a) dir index = Error) /\
     (forall a, cut_fine n cut -> a_len a <> Z.of_nat (length cs) -> LexSortCall m bits (map OArray cs) cut (DArray a) index = Error) /\
     (forall a, cut_fine n cut -> direction_ok (length cs) dir ->
        ~ In (a_dtype a) [5; 7; 9] \/ (0 < a_len a /\ (n < a_len a \/ (bits = 64 /\ a_dtype a = 5) \/ (bits = 32 /\ a_dtype a <> 5))) ->
        LexSortCall m bits (map OArray cs) cut dir (PArray a) = Error)).
Proof.
  split; [intros; apply bad_arrays; now apply (not_columns n)|]. split; [intros; apply bad_arrays; now apply (odd_columns c c' n n')|].
  intros m bits n cs cut dir index NE HS. split; [intros; now apply (bad_cut_type m bits n)|]. split; [intros; now apply (bad_cut_last m bits n) with (x := x)|].
  split; [intros; now apply (bad_direction m bits n)|]. intros; now apply (bad_index m bits n).
Qed.
Print Assumptions C103_refused.
Example C103_refused_ex : LexSortCall one_thread 32 [OArray (icol 5 [3; 1])] (PArray (block 7 [1])) DNone PNone = Error /\ LexSortCall one_thread 32 [OArray (icol 5 [3; 1])] PNone DNone (PArray (block 7 [1])) = Error /\
  LexSortCall one_thread 32 [OArray (icol 5 [3; 1])] PNone (DArray (block 0 [1; 1])) PNone = Error.
Proof. split; [vm_compute; reflexivity|]. split; vm_compute; reflexivity. Qed.

(** An empty index, empty cutoffs, no columns, and None instead of the first column are used as if there were something. *)
Theorem C103_undefined_refuted :
  exists c, shaped 2 c /\ items_ok c /\
    LexSortCall one_thread 64 [OArray c] PNone DNone (PArray (block 7 [])) = Undefined /\
    LexSortCall one_thread 64 [OArray c] (PArray (block 7 [])) DNone PNone = Undefined /\
    LexSortCall one_thread 64 [] PNone DNone PNone = Undefined /\
    LexSortCall one_thread 64 [ONone] PNone DNone PNone = Undefined.
Proof.
  exists (icol 7 [2; 1]). split; [repeat split; cbn; lia|]. split; [|split; [vm_compute; reflexivity|split; [vm_compute; reflexivity|split; vm_compute; reflexivity]]].
  split; [discriminate|]. cbn [icol c_dtype c_vals]. split; [exists [2; 1]; reflexivity|]. split; [lia|]. intros [H | H]; discriminate.
Qed.
Print Assumptions C103_undefined_refuted.

(** Directions in an array of int64 are read as bytes: here (descending, ascending) as (descending, descending). *)
Theorem C103_direction_refuted :
  exists c c' r, shaped 2 c /\ shaped 2 c' /\ items_ok c' /\
    LexSortCall one_thread 64 [OArray c; OArray c'] PNone (DArray (mkArg 7 [0; 0; 0; 0; 0; 0; 0; 0; 1; 0; 0; 0; 0; 0; 0; 0] 0 8 2)) PNone = Done r /\
    ~ in_row_order [(false, c); (true, c')] 0 2 r.
Proof.
  exists (icol 7 [5; 5]), (icol 7 [1; 2]), [1; 0]. split; [repeat split; cbn; lia|]. split; [repeat split; cbn; lia|]. split.
  { split; [discriminate|]. cbn [icol c_dtype c_vals]. split; [exists [1; 2]; reflexivity|]. split; [lia|]. intros [H | H]; discriminate. }
  split; [vm_compute; reflexivity|]. intros (_ & H). destruct (H 0%nat 1%nat 1 0 ltac:(lia) eq_refl eq_refl) as [(pre & c & post & E & B & F) | ((_ & A) & L)]; [|lia].
  destruct pre as [|p pre]; cbn [app] in E; injection E as E1 E2.
  - subst c. destruct B as (_ & v & w & Ev & Ew & B). cbn in Ev, Ew. injection Ev as <-. injection Ew as <-. cbn in B. lia.
  - destruct pre as [|p' pre]; cbn [app] in E2; [|injection E2 as _ E2; destruct pre; discriminate]. injection E2 as E2 _. subst c. destruct B as (_ & v & w & Ev & Ew & B).
    cbn in Ev, Ew. injection Ev as <-. injection Ew as <-. cbn in B. lia.
Qed.
Print Assumptions C103_direction_refuted.

(** An index with gaps between its elements is sorted as if there were none, and with cutoffs= an index is overwritten. *)
Theorem C103_index_refuted :
  exists c a a' r r', shaped 2 c /\ items_ok c /\ arg_ok 2 a /\ arg_vals 0 a = [1; 0] /\ arg_ok 2 a' /\ gapless a' /\ arg_vals 0 a' = [1; 1] /\
    LexSortCall one_thread 64 [OArray c] PNone DNone (PArray a) = Done r /\ ~ index_order [(true, c)] (arg_vals 0 a) r /\
    LexSortCall one_thread 64 [OArray c] (PArray (block 7 [2])) DNone (PArray a') = Done r' /\ ~ index_order [(true, c)] (arg_vals 0 a') r'.
Proof.
  exists (icol 7 [5; 6]), (mkArg 7 [1; 0; 0; 0] 0 2 2), (block 7 [1; 1]), [0; 0], [0; 1]. split; [repeat split; cbn; lia|]. split.
  { split; [discriminate|]. cbn [icol c_dtype c_vals]. split; [exists [5; 6]; reflexivity|]. split; [lia|]. intros [H | H]; discriminate. }
  split; [split; [reflexivity|]; split; [cbn; lia|]; intros i; cbn; lia|]. split; [reflexivity|]. split; [split; [reflexivity|]; split; [cbn; lia|]; intros i; cbn; lia|]. split; [now left|]. split; [reflexivity|].
  split; [vm_compute; reflexivity|]. split.
  - intros (lt & _ & (P & _)). change (arg_vals 0 (mkArg 7 [1; 0; 0; 0] 0 2 2)) with [1; 0] in P. assert (In 1 [0; 0]) as K by (apply (Permutation_in _ P); now left). cbn in K. lia.
  - split; [vm_compute; reflexivity|]. intros (lt & _ & (P & _)). change (arg_vals 0 (block 7 [1; 1])) with [1; 1] in P. apply Permutation_sym in P.
    assert (In 0 [1; 1]) as K by (apply (Permutation_in _ P); now left). cbn in K. lia.
Qed.
Print Assumptions C103_index_refuted.
