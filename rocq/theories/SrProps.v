(** Properties C113-C115: Sort, SortInPlace, SortInPlaceIndirect and IsSorted. *)
From Verif Require Import Base Mem Num AllModel EaModel EaSpec.
From Verif Require Import SrModel SrSpec SrProofs.
Local Open Scope Z_scope.

(** ** C113.  Missing: arrays with gaps, the merge sort for doubles that float cannot hold, other modes and types, text. *)
Theorem C113_sort_partial :
  forall single junk junk_bytes mode a, numeric a -> mode_given single mode a ->
  exists r, SortCall single junk junk_bytes mode (Nums a) = Done (Numbers r) /\ Permutation (arg_vals NaN a) r /\ in_order r.
Proof. exact sort_call. Qed.
Print Assumptions C113_sort_partial.
Theorem C113_inplace_partial :
  forall single junk junk_bytes mode a, numeric a -> mode_given single mode a ->
  exists mem, SortInPlaceCall single junk junk_bytes mode (Nums a) = Done (Numbers mem) /\
    Permutation (arg_vals NaN a) (arg_vals NaN (in_memory a mem)) /\ in_order (arg_vals NaN (in_memory a mem)) /\
    elsewhere (a_start a) (a_len a) (a_mem a) mem /\ SortCall single junk junk_bytes mode (Nums a) = Done (Numbers (arg_vals NaN (in_memory a mem))).
Proof. exact inplace_call. Qed.
Print Assumptions C113_inplace_partial.
(** byte strings of one ASCII character *)
Theorem C113_chars_partial :
  forall single junk junk_bytes mode a, 1 <= mode <= 3 -> a_dtype a = 18 -> texts 1 a -> Forall (Forall (fun b => b < 128)) (arg_vals [] a) ->
  exists r, SortCall single junk junk_bytes mode (Texts 1 a) = Done (Bytes r) /\ Permutation (concat (arg_vals [] a)) r /\
    forall i j x y, (i < j)%nat -> nth_error r i = Some x -> nth_error r j = Some y -> x <= y.
Proof. exact chars_call. Qed.
Print Assumptions C113_chars_partial.

Definition some_floats : arg fl := mkArg 12 [Fin 0; Fin 5; NaN; NInf; Fin 5; Fin 2; Fin 9] 1 1 5.
Definition some_chars : arg (list Z) := mkArg 18 [[99]; [97]; [98]] 0 1 3.
Definition never : nat -> fl := fun _ => NaN.
Definition nothing : nat -> Z := fun _ => 0.
Definition same (x : fl) : fl := x.
Example C113_example :
  numeric some_floats /\ (forall m, 1 <= m <= 3 -> mode_given same m some_floats) /\
  map (fun m => SortCall same never nothing m (Nums some_floats)) [1; 2; 3] = repeat (Done (Numbers [NInf; Fin 2; Fin 5; Fin 5; NaN])) 3 /\
  SortInPlaceCall same never nothing 2 (Nums some_floats) = Done (Numbers [Fin 0; NInf; Fin 2; Fin 5; Fin 5; NaN; Fin 9]).
Proof.
  split; [|split; [|split; vm_compute; reflexivity]].
  - split; [cbn; lia|]. split; [cbn; lia|]. split; [|split; [left; reflexivity|cbn; lia]].
    unfold arg_ok, some_floats. cbn [a_len a_start a_mem a_step length]. split; [lia|]. split; [lia|intros; lia].
  - intros m Hm. split; auto. intros _ _. apply Forall_forall. reflexivity.
Qed.
Example C113_chars_example : texts 1 some_chars /\ SortCall same never nothing 1 (Texts 1 some_chars) = Done (Bytes [97; 98; 99]).
Proof.
  split; [|vm_compute; reflexivity]. split; [lia|]. split; [cbn; lia|]. split; [|split; [left; reflexivity|]].
  - unfold arg_ok, some_chars. cbn [a_len a_start a_mem a_step length]. split; [lia|]. split; [lia|intros; lia].
  - cbn. repeat constructor; lia.
Qed.

(** every second element: the elements between them are sorted instead *)
Theorem C113_gaps_refuted :
  exists a r, a_dtype a = 7 /\ arg_ok 2 a /\ arg_vals NaN a = [Fin 3; Fin 1] /\ SortCall same never nothing 1 (Nums a) = Done (Numbers r) /\ r = [Fin 3; Fin 9].
Proof.
  exists (mkArg 7 [Fin 3; Fin 9; Fin 1; Fin 9] 0 2 2). eexists. split; [reflexivity|]. split; [|split; [reflexivity|split; vm_compute; reflexivity]].
  unfold arg_ok. cbn [a_len a_start a_mem a_step length]. split; [lia|]. split; [lia|intros; lia].
Qed.
Print Assumptions C113_gaps_refuted.
(** float has only the even numbers from 2^24 to 2^25 *)
Definition even_only (x : fl) : fl := match x with Fin z => Fin (z / 2 * 2) | _ => x end.
Theorem C113_double_refuted :
  exists a r, a_dtype a = 12 /\ numeric a /\ SortCall even_only never nothing 2 (Nums a) = Done (Numbers r) /\ ~ in_order r.
Proof.
  exists (mkArg 12 [Fin 16777217; Fin 16777216] 0 1 2). eexists. split; [reflexivity|]. split; [|split; [vm_compute; reflexivity|]].
  - split; [cbn; lia|]. split; [cbn; lia|]. split; [|split; [left; reflexivity|cbn; lia]].
    unfold arg_ok. cbn [a_len a_start a_mem a_step length]. split; [lia|]. split; [lia|intros; lia].
  - intros H. apply (H 0%nat 1%nat (Fin 16777217) (Fin 16777216)); auto. now left.
Qed.
Print Assumptions C113_double_refuted.
(** an unknown mode, or a type that is not supported (dates): no error, not sorted *)
Theorem C113_mode_refuted : exists a r, a_dtype a = 7 /\ SortCall same never nothing 0 (Nums a) = Done (Numbers r) /\ ~ in_order r.
Proof.
  exists (mkArg 7 [Fin 2; Fin 1] 0 1 2). eexists. split; [reflexivity|]. split; [vm_compute; reflexivity|]. intros H. apply (H 0%nat 1%nat (Fin 2) (Fin 1)); auto. now left.
Qed.
Print Assumptions C113_mode_refuted.
Theorem C113_dates_refuted : exists a r, a_dtype a = 21 /\ SortCall same never nothing 1 (Nums a) = Done (Numbers r) /\ ~ in_order r.
Proof.
  exists (mkArg 21 [Fin 2; Fin 1] 0 1 2). eexists. split; [reflexivity|]. split; [vm_compute; reflexivity|]. intros H. apply (H 0%nat 1%nat (Fin 2) (Fin 1)); auto. now left.
Qed.
Print Assumptions C113_dates_refuted.
(** text of more than one byte: Sort writes past the end of its array, SortInPlace mixes the characters of the items *)
Theorem C113_text_refuted : exists a, a_dtype a = 18 /\ a_mem a = [[99; 97]; [97; 98]] /\ a_len a = 2 /\
  SortCall same never nothing 1 (Texts 2 a) = Undefined /\ SortInPlaceCall same never nothing 1 (Texts 2 a) = Done (Bytes [97; 99; 97; 98]).
Proof. exists (mkArg 18 [[99; 97]; [97; 98]] 0 1 2). repeat split; vm_compute; reflexivity. Qed.
Print Assumptions C113_text_refuted.
(** characters are sorted as signed, and asked for as unsigned numbers *)
Theorem C113_signed_refuted : exists a r, a_dtype a = 18 /\ SortCall same never nothing 1 (Texts 1 a) = Done (Bytes r) /\
  IsSortedCall Mem.in_order false (fun _ => true) (Texts 1 a) = Done true /\
  IsSortedCall Mem.in_order false (fun _ => true) (Texts 1 (mkArg 18 (map (fun b => [b]) r) 0 1 2)) = Done false.
Proof. exists (mkArg 18 [[97]; [200]] 0 1 2). eexists. repeat split; vm_compute; reflexivity. Qed.
Print Assumptions C113_signed_refuted.

(** ** C114.  Missing: an index that repeats or leaves out numbers, other types. *)
Theorem C114_indirect_partial :
  forall junk key sort, key_types (a_dtype key) (a_dtype sort) -> whole_array key -> whole_array sort ->
  (a_dtype key = 5 -> a_len key < 2 ^ 31 /\ a_len sort < 2 ^ 31) ->
  reorders (arg_vals 0 sort) -> Forall (fun k => 0 <= k < a_len sort) (arg_vals 0 key) ->
  exists mem, SortInPlaceIndirectCall junk key sort = Done mem /\ elsewhere (a_start key) (a_len key) (a_mem key) mem /\
    Forall2 (fun k p => zrd (arg_vals 0 sort) p = Some k) (arg_vals 0 key) (arg_vals 0 (in_memory key mem)).
Proof. exact indirect_call. Qed.
Print Assumptions C114_indirect_partial.
Definition some_keys : arg Z := mkArg 5 [7; 0; 2; 1; 2; 7] 1 1 4.
Definition some_index : arg Z := mkArg 7 [2; 0; 1] 0 1 3.
Example C114_example :
  key_types 5 7 /\ whole_array some_keys /\ whole_array some_index /\ reorders (arg_vals 0 some_index) /\ Forall (fun k => 0 <= k < 3) (arg_vals 0 some_keys) /\
  SortInPlaceIndirectCall (fun _ => 77) some_keys some_index = Done [7; 1; 0; 2; 0; 7].
Proof.
  assert (W : forall a : arg Z, a_step a = 1 -> 0 <= a_len a < 100 -> 0 <= a_start a -> a_start a + a_len a <= Z.of_nat (length (a_mem a)) -> whole_array a).
  { intros a E H1 H2 H3. split; [lia|]. split; [|now left]. split; [lia|]. split; [lia|]. intros i Hi. rewrite E. lia. }
  split; [right; left; auto|]. split; [apply W; cbn; auto; lia|]. split; [apply W; cbn; auto; lia|]. change (arg_vals 0 some_index) with [2; 0; 1]. change (arg_vals 0 some_keys) with [0; 2; 1; 2].
  split; [|split; [repeat (apply Forall_cons; [lia|]); apply Forall_nil|vm_compute; reflexivity]].
  split; [cbn; repeat (apply NoDup_cons; [cbn; lia|]); apply NoDup_nil|cbn; repeat (apply Forall_cons; [lia|]); apply Forall_nil].
Qed.
(** the key becomes the place of the key in the index, not the entry of the index that the comment promises (Sort.cpp:2949) *)
Theorem C114_comment_refuted : exists key sort mem, a_dtype key = 7 /\ a_dtype sort = 7 /\ SortInPlaceIndirectCall (fun _ => 77) key sort = Done mem /\
  reorders (a_mem sort) /\ a_mem key = [0] /\ zrd (a_mem sort) 0 = Some 1 /\ mem = [2].
Proof.
  exists (mkArg 7 [0] 0 1 1), (mkArg 7 [1; 2; 0] 0 1 3). eexists. split; [reflexivity|]. split; [reflexivity|]. split; [vm_compute; reflexivity|].
  split; [|repeat split]. split; [cbn; repeat (apply NoDup_cons; [cbn; lia|]); apply NoDup_nil|cbn; repeat (apply Forall_cons; [lia|]); apply Forall_nil].
Qed.
Print Assumptions C114_comment_refuted.
(** int64 keys with an int32 index: no error, nothing is done *)
Theorem C114_types_refuted : exists key sort, a_dtype key = 7 /\ a_dtype sort = 5 /\ reorders (a_mem sort) /\ a_mem key = [0; 1] /\ a_mem sort = [1; 0] /\
  SortInPlaceIndirectCall (fun _ => 77) key sort = Done (a_mem key).
Proof.
  exists (mkArg 7 [0; 1] 0 1 2), (mkArg 5 [1; 0] 0 1 2). repeat (split; [reflexivity|]). split; [|repeat split].
  split; [cbn; repeat (apply NoDup_cons; [cbn; lia|]); apply NoDup_nil|cbn; repeat (apply Forall_cons; [lia|]); apply Forall_nil].
Qed.
Print Assumptions C114_types_refuted.
(** a key that the index does not list: what the workspace held; a key that is too great: a read after its end *)
Theorem C114_unlisted_refuted : exists key sort, a_dtype key = 7 /\ a_dtype sort = 7 /\ a_mem key = [1] /\ a_mem sort = [0; 0] /\
  forall x, - 2 ^ 63 <= x < 2 ^ 63 -> SortInPlaceIndirectCall (fun _ => x) key sort = Done [x].
Proof.
  exists (mkArg 7 [1] 0 1 1), (mkArg 7 [0; 0] 0 1 2). repeat (split; [reflexivity|]). intros x Hx.
  change (Done [wrapT (CI 8) x] = Done [x]). unfold wrapT. change (8 * 8 - 1) with 63. change (8 * 8) with 64. do 2 f_equal. rewrite Z.mod_small; lia.
Qed.
Print Assumptions C114_unlisted_refuted.
Theorem C114_range_refuted : exists key sort, a_dtype key = 7 /\ a_dtype sort = 7 /\ a_mem key = [2] /\ a_mem sort = [1; 0] /\
  SortInPlaceIndirectCall (fun _ => 77) key sort = Undefined.
Proof. exists (mkArg 7 [2] 0 1 1), (mkArg 7 [1; 0] 0 1 2). repeat split. Qed.
Print Assumptions C114_range_refuted.

(** ** C115.  [ord], [threaded], [seen]: any order of the work, with or without threads, and what they see of each other.  Missing: raw items. *)
Theorem C115_numbers :
  forall ord threaded seen a, fair ord -> numeric a ->
  exists b, IsSortedCall ord threaded seen (Nums a) = Done b /\ (b = true <-> ascending (arg_vals NaN a)).
Proof. exact numbers_call. Qed.
Print Assumptions C115_numbers.
Theorem C115_text_partial :
  forall ord threaded seen size a, fair ord -> texts size a -> a_dtype a = 18 \/ a_dtype a = 19 /\ (4 | size) ->
  exists b, IsSortedCall ord threaded seen (Texts size a) = Done b /\
    (b = true <-> forall i j x y, (i < j)%nat -> nth_error (arg_vals [] a) i = Some x -> nth_error (arg_vals [] a) j = Some y -> ~ text_less (width_of (a_dtype a)) size y x).
Proof. exact texts_call. Qed.
Print Assumptions C115_text_partial.
Theorem C115_refused : forall ord threaded seen x, not_accepted x -> IsSortedCall ord threaded seen x = Error.
Proof. exact refused_call. Qed.
Print Assumptions C115_refused.
(** what Sort returns is sorted *)
Theorem C115_after_sort :
  forall single junk junk_bytes ord threaded seen mode a r, fair ord -> numeric a -> mode_given single mode a ->
  SortCall single junk junk_bytes mode (Nums a) = Done (Numbers r) -> IsSortedCall ord threaded seen (Nums (mkArg (a_dtype a) r 0 1 (a_len a))) = Done true.
Proof. exact sorted_after. Qed.
Print Assumptions C115_after_sort.
Example C115_example :
  map (fun l => IsSortedCall Mem.in_order false (fun _ => true) (Nums (mkArg 12 l 0 1 3))) [[NInf; Fin 1; NaN]; [Fin 1; NaN; Fin 2]; [Fin 2; Fin 1; NaN]]
    = [Done true; Done false; Done false] /\
  IsSortedCall Mem.in_order false (fun _ => true) (Texts 4 (mkArg 19 [[255; 0; 0; 0]; [0; 1; 0; 0]] 0 1 2)) = Done true /\
  IsSortedCall Mem.in_order false (fun _ => true) (Texts 4 (mkArg 18 [[255; 0; 0; 0]; [0; 1; 0; 0]] 0 1 2)) = Done false /\
  IsSortedCall Mem.in_order false (fun _ => true) (Nums (mkArg 21 [Fin 1] 0 1 1)) = Error.
Proof. repeat split; vm_compute; reflexivity. Qed.
(** raw items in the order of their bytes *)
Theorem C115_raw_refuted : exists a, a_dtype a = 20 /\ a_mem a = [[0; 1]; [1; 0]] /\ ~ text_less 1 2 [1; 0] [0; 1] /\
  IsSortedCall Mem.in_order false (fun _ => true) (Texts 2 a) = Done false.
Proof.
  exists (mkArg 20 [[0; 1]; [1; 0]] 0 1 2). repeat (split; [reflexivity|]). split; [|vm_compute; reflexivity].
  intros (i & H & A & B). destruct i as [|[|i]]; [cbn in A; lia| |cbn in H; lia]. specialize (B 0%nat ltac:(lia)). cbn in B. lia.
Qed.
Print Assumptions C115_raw_refuted.
