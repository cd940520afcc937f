(** Property C99: GroupByAllPack32 from its arguments to its results. *)
From Verif Require Import Base Mem GroupSpec AccumSpec GrpxModel GrpxSpec AllModel AllSpec HeapModel HeapSpec PxModel PxSpec Px4Proofs Px5Proofs Px6Proofs.
Local Open Scope Z_scope.

(** Every column gets an array of the right type: of unique + 1 elements, whose bins in the range hold the result of the function for the rows
    of that group, or of one element per row, whose rows of the groups in the range hold the result of the function for that row; rows of group 0
    are invalid.  It does not matter how the bins of one column are divided among the threads.
    Missing, and refuted below: arrays iGroup, iFirst and nCount that are not the packed form of the keys or have gaps; first, last and nth of
    VOID items of more than one byte; medians of text; negative windows of sums and means.  Trimmed means and rolling sums and means of floating point
    numbers are shown for values whose sums are exact; medians and quantiles for pairs of values whose sum does not overflow. *)
Theorem C99_pack_partial :
  forall F (A : arith F) m d unique param keys p qs, order_is_ok A -> xmachine_ok A m -> packed_ok d unique keys p -> 0 <= unique < 2 ^ 63 - 1 ->
  Z.of_nat (length keys) < 2 ^ 63 -> qs <> [] -> Forall (pack_ok A (Z.of_nat (length keys)) unique (bits d) param) qs ->
  exists rs, Pack32 A m qs (Z.of_nat (length keys)) p unique param = Done rs /\ Forall2 (pack_answers A m (Z.of_nat (length keys)) unique param keys) qs rs.
Proof. exact @pack_right. Qed.
Print Assumptions C99_pack_partial.
Example C99_pack_ex :
  let c := ints 5 [10; -4; 7; 3; 9; 5] in let f := floats 12 [Some 10; Some 4; None; Some 3; Some 8; Some 5] in
  Pack32 whole (x_machine false) [mkQ c 100 0 4; mkQ c 101 0 4; mkQ c 103 0 4; mkQ c 104 0 4; mkQ f 105 0 4; mkQ f 103 1 3] 6 ex_pack 3 1
  = Done [(5, [I (-4); I 10; I 3; I (- 2 ^ 31)]); (5, [I (- 2 ^ 31); I 7; I 5; I (- 2 ^ 31)]); (5, [I (-4); I 9; I 4; I (- 2 ^ 31)]); (5, [I (-4); I 7; I 3; I (- 2 ^ 31)]);
          (12, [R None; R None; R None; R None]); (12, [I 77; R (Some 9); R (Some 4); I 77])] /\
  Pack32 whole (x_machine false) [mkQ c 200 0 4; mkQ f 201 0 4; mkQ c 202 0 4; mkQ f 206 0 4] 6 ex_pack 3 2
  = Done [(7, [I 10; I (- 2 ^ 63); I 17; I 3; I 16; I 8]); (12, [R (Some 10); R None; R (Some 10); R (Some 3); R (Some 8); R (Some 8)]);
          (5, [I (- 2 ^ 31); I (- 2 ^ 31); I (- 2 ^ 31); I (- 2 ^ 31); I (-1); I (- 2 ^ 31)]); (12, [R (Some 10); R None; R (Some 10); R (Some 3); R (Some 8); R (Some 4)])].
Proof. split; vm_compute; reflexivity. Qed.
Example C99_pack_hyp : let c := ints 5 [10; -4; 7; 3; 9; 5] in
  order_is_ok whole /\ xmachine_ok whole (x_machine true) /\ packed_ok 5 3 ex_keys ex_pack /\
  Forall (pack_ok whole 6 3 (bits 5) 2) [mkQ c 103 0 4; mkQ c 200 0 4; mkQ c 203 1 3; mkQ (texts 3 [1; 2; 3; 4; 5; 6]) 102 0 4].
Proof.
  cbv zeta. split; [exact whole_order|]. split; [apply ex_machine_ok|]. split; [exact ex_packed|].
  assert (S5 : shaped 6 (ints 5 [10; -4; 7; 3; 9; 5])) by (split; [reflexivity|split; [discriminate|split; [reflexivity|discriminate]]]).
  assert (S18 : shaped 6 (texts 3 [1; 2; 3; 4; 5; 6])) by (split; [reflexivity|split; [discriminate|split; [reflexivity|discriminate]]]).
  constructor; [|constructor; [|constructor; [|constructor; [|constructor]]]]; (split; [assumption|]; split; [reflexivity|]; split; [cbn; lia|]; split; [cbn; lia|]; split; [cbn; lia|]; split).
  - cbn [q_func q_col c_dtype c_vals ints values_ok map]. intros a b Ha Hb. cbn in Ha, Hb. change (in_type 103 5) with (XNum (CI 4)). cbv iota. right. change (8 * 4 - 1) with 31.
    repeat (destruct Ha as [<- | Ha]; [repeat (destruct Hb as [<- | Hb]; [cbn; lia|]); destruct Hb|]). destruct Ha.
  - exact Logic.I.
  - discriminate.
  - cbn. lia.
  - exact Logic.I.
  - cbn. lia.
  - exact Logic.I.
  - exact Logic.I.
Qed.

(** What the results are for integers, in terms of whole numbers: first, nth, last, median (toward zero), the smallest most frequent value ... *)
Theorem C99_integers :
  forall F (A : arith F) m func d lo hi missing param zs r, int_type d = Some (lo, hi, missing) -> 1 <= d -> Forall (fun z => lo <= z <= hi) zs ->
  In func [100; 101; 102; 103; 104] -> pack_spec A m func d param (map I zs) r -> exists z, r = I z /\ pack_integer func missing param zs z.
Proof. exact @pack_integers. Qed.
Print Assumptions C99_integers.
(** ... sums of windows modulo 2^64, the same without invalid values, differences modulo the size of the type, earlier values, counts. *)
Theorem C99_rolling_integers :
  forall F (A : arith F) func d lo hi missing param zs k r, int_type d = Some (lo, hi, missing) -> 1 <= d -> Forall (fun z => lo <= z <= hi) zs ->
  (k < length zs)%nat -> Z.of_nat (length zs) <= 2 ^ 31 -> In func [200; 201; 202; 203; 204] ->
  roll_spec A func d param (map I zs) k r -> exists z, r = I z /\ roll_integer func lo hi missing param zs k z.
Proof. exact @roll_integers. Qed.
Print Assumptions C99_rolling_integers.
Example C99_integers_ex : int_type 2 = Some (0, 255, 255) /\ Forall (fun z => 0 <= z <= 255) [200; 100; 255] /\
  pack_spec whole (x_machine false) 101 2 (-1) (map I [200; 100; 255]) (I 255) /\ pack_integer 101 255 (-1) [200; 100; 255] 255 /\
  roll_spec whole 201 2 2 (map I [200; 100; 255]) 2 (I 100) /\ roll_integer 201 0 255 255 2 [200; 100; 255] 2 100.
Proof.
  split; [reflexivity|]. split; [repeat constructor; lia|]. split; [vm_compute; reflexivity|]. split; [reflexivity|]. split; [vm_compute; reflexivity|].
  cbn. split; [exists 0; reflexivity|cbn; lia].
Qed.

(** What is refused: arrays iGroup, iFirst and nCount of different types or not of int32 or int64; something that is no array, an array of two or
    more dimensions or of another type than those of NumPy; columns of different lengths; lists of functions or of first bins of another length;
    columns of another length than the key; functions and types that are not supported. *)
Theorem C99_errors :
  forall F (A : arith F) m rows g f c unique param,
  (forall cols funcs lows highs, k_dtype f <> k_dtype g \/ k_dtype c <> k_dtype g \/ ~ In (k_dtype g) [5; 7; 9] ->
     PyGroupByAllPack32 A m cols rows g f c unique funcs lows highs param = Error) /\
  (unique < 2 ^ 63 - 1 ->
    (forall n cs rest funcs lows highs, Forall (shaped n) cs -> PyGroupByAllPack32 A m (map OArray cs ++ OOther :: rest) rows g f c unique funcs lows highs param = Error) /\
    (forall n cs x rest funcs lows highs, Forall (shaped n) cs -> c_dtype x = -1 \/ c_ndim x <> 0 /\ c_ndim x <> 1 ->
       PyGroupByAllPack32 A m (map OArray cs ++ OArray x :: rest) rows g f c unique funcs lows highs param = Error) /\
    (forall n n' c1 c2 rest funcs lows highs, shaped n c1 -> shaped n' c2 -> n <> n' -> Forall (fun c => exists k, shaped k c) rest ->
       PyGroupByAllPack32 A m (map OArray (c1 :: c2 :: rest)) rows g f c unique funcs lows highs param = Error) /\
    (forall n cs funcs lows highs, Forall (shaped n) cs -> length funcs <> length cs \/ length lows <> length cs ->
       PyGroupByAllPack32 A m (map OArray cs) rows g f c unique funcs lows highs param = Error) /\
    (forall n cs funcs lows highs, Forall (shaped n) cs -> cs <> [] -> rows <> n -> PyGroupByAllPack32 A m (map OArray cs) rows g f c unique funcs lows highs param = Error) /\
    (forall d qs q, PxSpec.index_ok d g -> PxSpec.index_ok d f -> PxSpec.index_ok d c -> Forall (fun q => shaped rows (q_col q)) qs -> In q qs ->
       - 2 ^ 31 <= q_func q < 2 ^ 31 -> supported (q_func q) (c_dtype (q_col q)) = false -> ~ (q_func q = 103 /\ is_text (c_dtype (q_col q)) = true) ->
       Pack32 A m qs rows (mkPack g f c) unique param = Error)).
Proof.
  intros F A m rows g f c unique param. split; [intros; now apply bad_index|]. intros U. split; [|split; [|split; [|split; [|split]]]].
  - intros. now apply no_array with n.
  - intros. now apply wrong_column with n.
  - intros. now apply wrong_lengths with n n'.
  - intros. now apply wrong_lists with n.
  - intros. now apply wrong_rows with n.
  - intros d qs q I1 I2 I3 SH Hq HF SU NT. now apply (wrong_function A m d rows (mkPack g f c) unique param qs q).
Qed.
Print Assumptions C99_errors.
Example C99_errors_ex : supported 204 12 = false /\ shaped 6 (floats 12 (repeat (Some 1) 6)) /\
  Pack32 whole (x_machine false) [mkQ (ints 5 [1; 2; 3; 4; 5; 6]) 204 0 1; mkQ (floats 12 (repeat (Some 1) 6)) 204 0 1] 6 ex_pack 3 1 = Error.
Proof. split; [reflexivity|]. split; [|vm_compute; reflexivity]. split; [reflexivity|]. split; [discriminate|]. split; [reflexivity|discriminate]. Qed.

(** The first items of VOID are written into an array of single bytes. *)
Theorem C99_void_refuted : exists q, shaped 6 (q_col q) /\ supported (q_func q) (c_dtype (q_col q)) = true /\ c_dtype (q_col q) = 20 /\ c_item (q_col q) = 2 /\
  Pack32 whole (x_machine false) [q] 6 ex_pack 3 0 = Undefined.
Proof.
  exists (mkQ (mkCol 20 1 (map I [7; 8; 9; 10; 11; 12]) 2 2) 100 0 4).
  split; [split; [reflexivity|split; [discriminate|split; [reflexivity|discriminate]]]|]. split; [reflexivity|]. split; [reflexivity|]. split; [reflexivity|]. vm_compute. reflexivity.
Qed.
Print Assumptions C99_void_refuted.
(** The median of text is text of zero bytes ... *)
Theorem C99_text_median_refuted : exists q, shaped 6 (q_col q) /\ c_dtype (q_col q) = 18 /\ q_func q = 103 /\ c_vals (q_col q) = map I [7; 8; 9; 10; 11; 12] /\
  Pack32 whole (x_machine false) [q] 6 ex_pack 3 0 = Done [(18, [I 0; I 0; I 0; I 0])].
Proof.
  exists (mkQ (texts 3 [7; 8; 9; 10; 11; 12]) 103 0 4).
  split; [split; [reflexivity|split; [discriminate|split; [reflexivity|discriminate]]]|]. split; [reflexivity|]. split; [reflexivity|]. split; [reflexivity|]. vm_compute. reflexivity.
Qed.
Print Assumptions C99_text_median_refuted.
(** ... and for more than 65536 rows, with threads, written into an array of single bytes. *)
Theorem C99_text_median_threads_refuted :
  forall F (A : arith F) m d rows p unique param q, PxSpec.index_ok d (p_group p) -> PxSpec.index_ok d (p_first p) -> PxSpec.index_ok d (p_count p) -> In d [5; 7; 9] ->
  0 <= unique < 2 ^ 63 - 1 -> shaped rows (q_col q) -> 65536 < rows -> is_text (c_dtype (q_col q)) = true -> 1 < c_item (q_col q) -> q_func q = 103 ->
  0 <= q_low q < q_high q -> q_high q <= unique + 1 -> x_threads m = true -> 0 < x_cores m -> Pack32 A m [q] rows p unique param = Undefined.
Proof. exact @text_median. Qed.
Print Assumptions C99_text_median_threads_refuted.
Example C99_text_median_threads_ex : x_threads (x_machine true) = true /\ 0 < x_cores (x_machine true) /\ PxSpec.index_ok 5 (p_group ex_pack) /\ is_text 18 = true.
Proof. split; [reflexivity|]. split; [reflexivity|]. split; [apply an_index_ok|reflexivity]. Qed.
(** An array iGroup with gaps is read as if it had none: group 1 gets the rows 0 and 0 instead of 0 and 1. *)
Theorem C99_strided_refuted : exists g f c q, k_step g = 2 /\ key_vals g = [0; 1] /\ layout 2 [1; 1] [1; 1] (key_vals c) (key_vals g) (key_vals f) /\ shaped 2 (q_col q) /\
  Pack32 whole (x_machine false) [q] 2 (mkPack g f c) 1 0 = Done [(5, [I (- 2 ^ 31); I 10])] /\ ~ pack_answers whole (x_machine false) 2 1 0 [1; 1] q (5, [I (- 2 ^ 31); I 10]).
Proof.
  exists (mkKey 5 1 [0; 0; 1] 0 2 2), (an_index 5 [0; 0]), (an_index 5 [0; 2]), (mkQ (ints 5 [10; 20]) 102 0 2).
  split; [reflexivity|]. split; [reflexivity|]. split.
  { split; [reflexivity|]. split.
    - split; [reflexivity|]. intros g Hg. assert (g = 0 \/ g = 1) as [-> | ->] by lia; reflexivity.
    - split; [reflexivity|]. split; [reflexivity|]. intros g Hg. assert (g = 0 \/ g = 1) as [-> | ->] by lia; eexists _, _; repeat split; reflexivity. }
  split; [split; [reflexivity|split; [discriminate|split; [reflexivity|discriminate]]]|]. split; [vm_compute; reflexivity|].
  intros (_ & _ & S). destruct (S 1) as (r & E & S'); [cbn; lia|]. vm_compute in E. injection E as <-. vm_compute in S'. discriminate S'.
Qed.
Print Assumptions C99_strided_refuted.
(** The lengths of the list of last bins and of iGroup are not checked, nor that there is a column at all; a column that is None is followed as a
    null pointer. *)
Theorem C99_lengths_refuted : exists c, shaped 6 c /\
  PyGroupByAllPack32 whole (x_machine false) [OArray c] 6 (p_group ex_pack) (p_first ex_pack) (p_count ex_pack) 3 [100] [0] [] 0 = Undefined /\
  PyGroupByAllPack32 whole (x_machine false) [OArray c] 6 (an_index 5 []) (p_first ex_pack) (p_count ex_pack) 3 [100] [0] [4] 0 = Undefined /\
  PyGroupByAllPack32 whole (x_machine false) [] 6 (p_group ex_pack) (p_first ex_pack) (p_count ex_pack) 3 [] [] [] 0 = Undefined /\
  PyGroupByAllPack32 whole (x_machine false) [ONone] 0 (p_group ex_pack) (p_first ex_pack) (p_count ex_pack) 3 [100] [0] [4] 0 = Undefined.
Proof.
  exists (ints 5 [1; 2; 3; 4; 5; 6]). split; [split; [reflexivity|split; [discriminate|split; [reflexivity|discriminate]]]|].
  split; [vm_compute; reflexivity|]. split; [vm_compute; reflexivity|]. split; vm_compute; reflexivity.
Qed.
Print Assumptions C99_lengths_refuted.
(** With a negative window the sums, and with a window of 0 or less the quantiles, are what happened to be in memory. *)
Theorem C99_window_refuted : exists q q', shaped 6 (q_col q) /\ supported (q_func q) (c_dtype (q_col q)) = true /\ supported (q_func q') (c_dtype (q_col q')) = true /\
  Pack32 whole (x_machine false) [q] 6 ex_pack 3 (-1) = Done [(7, [I 77; I (- 2 ^ 63); I 77; I 77; I 77; I 77])] /\
  Pack32 whole (x_machine false) [q'] 6 ex_pack 3 500 = Done [(12, [I 77; R None; I 77; I 77; I 77; I 77])].
Proof.
  exists (mkQ (ints 5 [1; 2; 3; 4; 5; 6]) 200 0 4), (mkQ (ints 5 [1; 2; 3; 4; 5; 6]) 207 0 4).
  split; [split; [reflexivity|split; [discriminate|split; [reflexivity|discriminate]]]|]. split; [reflexivity|]. split; [reflexivity|]. split; vm_compute; reflexivity.
Qed.
Print Assumptions C99_window_refuted.
