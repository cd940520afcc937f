(** Property C97: GroupByAll32 from its arguments to its results. *)
From Verif Require Import Base Mem AccumModel AccumSpec VarSpec AllModel AllSpec AllProofs All3Proofs All4Proofs All5Proofs.
Local Open Scope Z_scope.

(** Every column gets an array of the right type with unique + 1 elements, whose bins in the range hold the result of the function for the
    rows of that group.  It does not matter how the rows are given to the threads.
    Missing, and refuted below: keys with gaps between their elements; sums of float32 that skip NaN when the range does not begin with bin 0
    and has at least as many bins as there are rows.  When one column is split among the threads: sums and means of floating point numbers are
    shown for an arithmetic without rounding, and for float32 without NaN only for ranges that begin with bin 0. *)
Theorem C97_groups_partial :
  forall F (A : arith F) m key unique qs, arith_ok A -> key_ok key -> k_step key = 1 \/ k_len key <= 1 -> (unique + 1) * 10 < 2 ^ 63 ->
  machine_ok m (k_len key) -> qs <> [] -> Forall (query_ok (k_len key) unique) qs ->
  (forall q, In q qs -> q_func q = 50 -> c_dtype (q_col q) = 11 -> q_low q = 0 \/ q_high q - q_low q < k_len key) ->
  (scattered_call m qs key unique -> forall q, In q qs ->
    (floating (out_dtype (q_func q) (c_dtype (q_col q))) = true -> In (q_func q) [0; 1; 50; 51] -> arith_exact A) /\
    (c_dtype (q_col q) = 11 -> In (q_func q) [50; 51] -> q_low q = 0)) ->
  exists res, GroupBy A m qs key unique = Done res /\ Forall2 (answers A unique key) qs res.
Proof. intros F A m key unique qs AO KO KC RO. exact (groups_right A AO m key unique KO KC RO qs). Qed.
Print Assumptions C97_groups_partial.
Example C97_groups_ex :
  GroupBy whole one_thread [mkQ (ints 5 [10; -4; 7]) 0 0 3; mkQ (floats 12 [Some 8; None; Some 2]) 51 1 3; mkQ (ints 1 [5; -128; 3]) 52 0 2; mkQ (floats 11 [Some 3; Some 1; Some 7]) 4 0 3] (a_key [2; 1; 2]) 2
  = Done [(7, [I 0; I (-4); I 17]); (12, [I 77; R None; R (Some 5)]); (1, [I (-128); I (-128); I 77]); (11, [R None; R None; R (Some 8)])].
Proof. vm_compute. reflexivity. Qed.
Example C97_scattered_ex :
  GroupBy whole two_threads [mkQ (ints 5 [1; 2; 3; 4; 5; 6; 7; 8; 9; 10; 11]) 0 0 1] (a_key (repeat 0 11)) 0 = Done [(7, [I 66])] /\
  GroupBy whole two_threads [mkQ (floats 11 (map Some [1; 2; 3; 4; 5; 6; 7; 8; 9; 10; 11])) 1 0 1] (a_key (repeat 0 11)) 0 = Done [(11, [R (Some 6)])].
Proof. split; vm_compute; reflexivity. Qed.
Example C97_groups_hyp : arith_ok whole /\ arith_exact whole /\ key_ok (a_key (repeat 0 11)) /\ machine_ok two_threads 11 /\
  Forall (query_ok 11 0) [mkQ (ints 5 [1; 2; 3; 4; 5; 6; 7; 8; 9; 10; 11]) 0 0 1] /\
  scattered_call two_threads [mkQ (ints 5 [1; 2; 3; 4; 5; 6; 7; 8; 9; 10; 11]) 0 0 1] (a_key (repeat 0 11)) 0.
Proof.
  split; [exact whole_ok|]. split; [exact whole_exact|]. split.
  { split; [reflexivity|]. split; [cbn; auto|]. cbn [a_key k_len k_start k_step k_mem repeat length]. split; [lia|]. split; [lia|]. intros i. lia. }
  split.
  { split; [cbn; lia|]. split; [discriminate|]. vm_compute. apply perm_trans with [0; 2; 1]%nat; [apply perm_swap|]. constructor. apply perm_swap. }
  split.
  { constructor; [|constructor]. split; [split; [reflexivity|split; [cbn; lia|split; [reflexivity|split; [reflexivity|discriminate]]]]|]. split; [cbn; auto|]. cbn. lia. }
  split; [reflexivity|]. split; [reflexivity|]. eexists. split; reflexivity.
Qed.

(** What the results are for integers and bool, in terms of whole numbers: sums modulo 2^64, the lowest and the highest value. *)
Theorem C97_integers :
  forall F (A : arith F) func d lo hi missing zs r, int_type d = Some (lo, hi, missing) -> Forall (fun z => lo <= z <= hi) zs -> In func [0; 2; 3; 50; 52; 53] ->
  group_spec A func d (map I zs) r -> exists z, r = I z /\ int_result func d missing zs z.
Proof. exact @integers. Qed.
Print Assumptions C97_integers.
Example C97_integers_ex : int_type 2 = Some (0, 255, 255) /\ Forall (fun z => 0 <= z <= 255) [200; 100; 255] /\ group_spec whole 50 2 (map I [200; 100; 255]) (I 300)
  /\ group_spec whole 52 2 (map I [200; 100; 255]) (I 100).
Proof.
  split; [reflexivity|]. split; [repeat constructor; lia|]. split; [vm_compute; reflexivity|].
  vm_compute. split; [right; left; reflexivity|]. intros y [<- | [<- | []]]; reflexivity.
Qed.
(** ... and for floating point numbers, in terms of the operations of the machine. *)
Theorem C97_floats :
  forall F (A : arith F) xs r,
  (group_spec A 0 12 (map R xs) r -> r = R (if existsb (isnan A) xs then fnanv A (CF 8) else fold_left (fun s x => fadd A (CF 8) s (cast A (CF 8) x)) xs (fzero A (CF 8)))) /\
  (group_spec A 0 11 (map R xs) r -> r = R (if existsb (isnan A) xs then fnanv A (CF 4) else cast A (CF 4) (fold_left (fun s x => fadd A (CF 8) s (cast A (CF 8) x)) xs (fzero A (CF 8))))) /\
  (group_spec A 1 12 (map R xs) r -> r = R (if existsb (isnan A) xs || (length xs =? 0)%nat then fnanv A (CF 8)
     else fdivn A (CF 8) (fold_left (fun s x => fadd A (CF 8) s (cast A (CF 8) x)) xs (fzero A (CF 8))) (Z.of_nat (length xs)))) /\
  (group_spec A 2 12 (map R xs) r -> if existsb (isnan A) xs || (length xs =? 0)%nat then r = R (fnanv A (CF 8))
     else exists x, r = R (cast A (CF 8) x) /\ In x xs /\ forall y, In y xs -> fltb A (cast A (CF 8) y) (cast A (CF 8) x) = false).
Proof. exact @floats_right. Qed.
Print Assumptions C97_floats.
Example C97_floats_ex : group_spec whole 1 12 (map R [Some 4; Some 8]) (R (Some 6)) /\ group_spec whole 0 11 (map R [Some 4; None]) (R None).
Proof. split; vm_compute; reflexivity. Qed.

(** What is refused: a key with another number of dimensions or of another type; something that is no array, an array of two or more
    dimensions or of another type than those of NumPy; lists of functions or of first
    bins of another length; columns of different lengths or of another length than the key; functions and types that are not supported. *)
Theorem C97_errors :
  forall F (A : arith F) m key unique,
  (forall cols funcs lows highs, k_dims key <> 1 \/ ~ In (k_dtype key) [1; 3; 5; 7; 9] -> GroupByAll32 A m cols key unique funcs lows highs = Error) /\
  (forall n cs rest funcs lows highs, Forall (shaped n) cs -> GroupByAll32 A m (map OArray cs ++ OOther :: rest) key unique funcs lows highs = Error) /\
  (forall n cs c rest funcs lows highs, Forall (shaped n) cs -> c_dtype c = -1 \/ c_ndim c <> 0 /\ c_ndim c <> 1 ->
     GroupByAll32 A m (map OArray cs ++ OArray c :: rest) key unique funcs lows highs = Error) /\
  (forall n cs funcs lows highs, Forall (shaped n) cs -> length funcs <> length cs \/ length lows <> length cs -> GroupByAll32 A m (map OArray cs) key unique funcs lows highs = Error) /\
  (forall n cs funcs lows highs, Forall (shaped n) cs -> cs <> [] -> k_len key <> n -> GroupByAll32 A m (map OArray cs) key unique funcs lows highs = Error) /\
  (forall c c' rest n n' funcs lows highs, shaped n c -> shaped n' c' -> n <> n' -> Forall (fun c => exists k, shaped k c) rest ->
     GroupByAll32 A m (map OArray (c :: c' :: rest)) key unique funcs lows highs = Error) /\
  (forall qs q, key_ok key -> Forall (fun q => shaped (k_len key) (q_col q)) qs -> - 2 ^ 63 <= (unique + 1) * 10 < 2 ^ 63 -> In q qs ->
     - 2 ^ 31 <= q_func q < 2 ^ 31 -> ~ (In (q_func q) functions /\ 0 <= c_dtype (q_col q) <= 13) -> GroupBy A m qs key unique = Error).
Proof.
  intros F A m key unique. split; [|split; [|split; [|split; [|split; [|split]]]]].
  - intros cols funcs lows highs [H | H]; [now apply bad_dims|now apply bad_type].
  - intros. now apply not_array with n.
  - intros. now apply bad_column with n.
  - intros. now apply bad_lists with n.
  - intros. now apply bad_length with n.
  - intros. now apply columns_differ with n n'.
  - intros. now apply unsupported with q.
Qed.
Print Assumptions C97_errors.
Example C97_errors_ex : shaped 2 (ints 5 [1; 2]) /\ GroupBy whole one_thread [mkQ (ints 5 [1; 2]) 6 0 1] (a_key [0; 0]) 0 = Error.
Proof. split; [|vm_compute; reflexivity]. split; [reflexivity|]. split; [discriminate|]. split; [reflexivity|discriminate]. Qed.

(** A key with gaps is read as if it had none: the rows get into wrong groups. *)
Theorem C97_strided_key_refuted : exists key q, key_ok key /\ query_ok (k_len key) 1 q /\ key_vals key = [1; 1] /\
  GroupBy whole one_thread [q] key 1 = Done [(7, [I 20; I 10])] /\ ~ answers whole 1 key q (7, [I 20; I 10]).
Proof.
  exists (mkKey 5 1 [1; 0; 1; 0] 0 2 2), (mkQ (ints 5 [10; 20]) 0 0 2).
  split. { split; [reflexivity|]. split; [cbn; auto|]. cbn [k_len k_start k_step k_mem length]. split; [lia|]. split; [lia|]. intros i. lia. }
  split. { split; [split; [reflexivity|split; [cbn; lia|split; [reflexivity|split; [reflexivity|discriminate]]]]|]. split; [cbn; auto|]. cbn. lia. }
  split; [reflexivity|]. split; [vm_compute; reflexivity|].
  intros (_ & _ & R). destruct (R 1) as (r & E & S); [cbn; lia|]. vm_compute in E. injection E as <-. vm_compute in S. discriminate S.
Qed.
Print Assumptions C97_strided_key_refuted.
(** Of a range that begins after bin 0 the wrong bins are cleared by the sum of float32 that skips NaN: here bin 2 keeps what was in memory. *)
Theorem C97_nansum_refuted : exists m key q, key_ok key /\ machine_ok m (k_len key) /\ query_ok (k_len key) 2 q /\
  GroupBy whole m [q] key 2 = Done [(11, [R (Some 0); R (Some 5); R (Some 77)])] /\ ~ answers whole 2 key q (11, [R (Some 0); R (Some 5); R (Some 77)]).
Proof.
  exists (mkM false 4 [[0]]%nat (fun _ _ => R (Some 77))), (a_key [1]), (mkQ (floats 11 [Some 5]) 50 1 3).
  split. { split; [reflexivity|]. split; [cbn; auto|]. cbn [a_key k_len k_start k_step k_mem length]. split; [lia|]. split; [lia|]. intros i. lia. }
  split. { split; [cbn; lia|]. split; [discriminate|]. vm_compute. constructor. constructor. }
  split. { split; [split; [reflexivity|split; [cbn; lia|split; [reflexivity|split; [reflexivity|discriminate]]]]|]. split; [cbn; auto 10|]. cbn. lia. }
  split; [vm_compute; reflexivity|].
  intros (_ & _ & R). destruct (R 2) as (r & E & S); [cbn; lia|]. vm_compute in E. injection E as <-. vm_compute in S. discriminate S.
Qed.
Print Assumptions C97_nansum_refuted.
(** The length of the list of last bins is not checked. *)
Theorem C97_bin_high_refuted : exists c1 c2 key, key_ok key /\ shaped (k_len key) c1 /\ shaped (k_len key) c2 /\
  GroupByAll32 whole one_thread [OArray c1; OArray c2] key 1 [0; 0] [0; 0] [2] = Undefined.
Proof.
  exists (ints 5 [10; 20]), (ints 5 [3; 4]), (a_key [0; 1]).
  split. { split; [reflexivity|]. split; [cbn; auto|]. cbn [a_key k_len k_start k_step k_mem length]. split; [lia|]. split; [lia|]. intros i. lia. }
  split; [split; [reflexivity|split; [discriminate|split; [reflexivity|discriminate]]]|]. split; [split; [reflexivity|split; [discriminate|split; [reflexivity|discriminate]]]|].
  vm_compute. reflexivity.
Qed.
Print Assumptions C97_bin_high_refuted.
(** Without columns the length of the first one is read from memory that was never written. *)
Theorem C97_empty_refuted : forall F (A : arith F) m key unique, key_ok key -> GroupBy A m [] key unique = Undefined.
Proof.
  intros F A m key unique (K1 & K2 & _). unfold GroupBy, GroupByAll32. rewrite K1. change (1 =? 1) with true. cbn [negb].
  replace (existsb (Z.eqb (k_dtype key)) [1; 3; 5; 7; 9]) with true; [reflexivity|]. symmetry. apply existsb_exists. exists (k_dtype key). split; [exact K2|apply Z.eqb_refl].
Qed.
Print Assumptions C97_empty_refuted.
(** The range of bins is not checked: a range that ends after the last bin makes the code write outside of its array. *)
Theorem C97_range_refuted : exists q key, key_ok key /\ column_ok (k_len key) (q_col q) /\ q_high q = 3 /\ GroupBy whole one_thread [q] key 1 = Undefined.
Proof.
  exists (mkQ (ints 5 [10; 20]) 0 0 3), (a_key [0; 1]).
  split. { split; [reflexivity|]. split; [cbn; auto|]. cbn [a_key k_len k_start k_step k_mem length]. split; [lia|]. split; [lia|]. intros i. lia. }
  split; [split; [reflexivity|split; [cbn; lia|split; [reflexivity|split; [discriminate|discriminate]]]]|]. split; [reflexivity|]. vm_compute. reflexivity.
Qed.
Print Assumptions C97_range_refuted.
(** A column of one row that is a view of a larger array is refused; a column without dimensions is read through a null pointer. *)
Theorem C97_one_row_refuted : forall F (A : arith F) m unique v,
  GroupBy A m [mkQ (mkCol 5 1 [v] 8 4) 0 0 1] (a_key [0]) unique = Error /\ GroupBy A m [mkQ (mkCol 5 0 [v] 4 4) 0 0 1] (a_key [0]) unique = Undefined.
Proof. intros. split; reflexivity. Qed.
Print Assumptions C97_one_row_refuted.
(** The number of the function is cut to 32 bits: 2^32 is the sum. *)
Theorem C97_function_number_refuted : forall F (A : arith F) m c key unique low high,
  ~ In (2 ^ 32) functions /\ GroupBy A m [mkQ c (2 ^ 32) low high] key unique = GroupBy A m [mkQ c 0 low high] key unique.
Proof.
  intros. split; [cbn; intuition discriminate|]. unfold GroupBy, GroupByAll32. cbn [map q_func q_low q_high q_col length hd].
  replace (as_func (2 ^ 32)) with (as_func 0) by reflexivity.
  destruct (negb _); [reflexivity|]. destruct (negb _); [reflexivity|]. destruct (BuildArrayInfo _) as [[|i [|j l]]| |]; try reflexivity.
Qed.
Print Assumptions C97_function_number_refuted.
(** The smallest value of a group without rows is -128 in an array of bool. *)
Theorem C97_bool_refuted : exists q key, key_ok key /\ query_ok (k_len key) 1 q /\ GroupBy whole one_thread [q] key 1 = Done [(0, [I 1; I (-128)])].
Proof.
  exists (mkQ (ints 0 [1; 1]) 2 0 2), (a_key [0; 0]).
  split. { split; [reflexivity|]. split; [cbn; auto|]. cbn [a_key k_len k_start k_step k_mem length]. split; [lia|]. split; [lia|]. intros i. lia. }
  split. { split; [split; [reflexivity|split; [cbn; lia|split; [reflexivity|split; [discriminate|]]]]|split; [cbn; auto|cbn; lia]]. intros _ v Hv. cbn in Hv. intuition. }
  vm_compute. reflexivity.
Qed.
Print Assumptions C97_bool_refuted.
