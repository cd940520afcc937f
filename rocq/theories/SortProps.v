(** Properties C21-C25 and C49-C51: sorting. *)
From Coq Require Import SpecFloat.
From Verif Require Import Base Mem Num SortModel SortSpec SortProofs Sort3Proofs Sort4Proofs Sort5Proofs Sort6Proofs Sort7Proofs Sort8Proofs.
Local Open Scope Z_scope.

(** ** C21.  [r] is what the index sort returns for the column [v]: any number of rows, with and without threads ([ts]: the
    order in which the threads make their steps; the result is None if the order is not a complete run), any content of
    the uninitialised workspace. *)
Theorem C21_int :
  forall asc (v : list Z) check threading ts junk r, (length v <= length junk)%nat ->
  LexSort threading ts junk (Z.of_nat (length v)) None [Col (at_index (COMPARE_LT_int asc) v) check] = Some r ->
  argsort (by_value 0 (fun x y => if asc then x <? y else y <? x) v) (Z.of_nat (length v)) r.
Proof. intros. eapply (argsort_values (fun _ => True)); eauto; [apply sw_on_all, int_sw|now apply Forall_forall]. Qed.
Print Assumptions C21_int.

Theorem C21_float :
  forall asc (v : list fl) check threading ts junk r, (length v <= length junk)%nat ->
  LexSort threading ts junk (Z.of_nat (length v)) None [Col (at_index (COMPARE_LT_float asc) v) check] = Some r ->
  argsort (by_value NaN (fun x y => (if asc then flt x y else flt y x) || (negb (is_nan x) && is_nan y)) v) (Z.of_nat (length v)) r /\
  nan_last v r.
Proof.
  intros asc v check threading ts junk r Hj H.
  assert (A : argsort (by_value NaN (COMPARE_LT_float asc) v) (Z.of_nat (length v)) r) by
    (eapply (argsort_values (fun _ => True)); eauto; [apply sw_on_all, float_sw|now apply Forall_forall]).
  split; [|eapply argsort_nan; eauto]. destruct A as [A B]. split; auto. intros i j x y Hij Hx Hy. specialize (B i j x y Hij Hx Hy).
  unfold by_value, COMPARE_LT_float in *. now rewrite !(Bool.andb_comm (negb _)).
Qed.
Print Assumptions C21_float.

(** byte strings, and unicode strings as lists of code points *)
Theorem C21_string :
  forall asc k (v : list (list Z)) check threading ts junk r, Forall (fun s => length s = k) v -> (length v <= length junk)%nat ->
  LexSort threading ts junk (Z.of_nat (length v)) None [Col (at_index (STRING_LT asc) v) check] = Some r ->
  argsort (by_value (repeat 0 k) (STRING_LT asc) v) (Z.of_nat (length v)) r.
Proof. intros. eapply (argsort_values (fun s => length s = k)); eauto; [apply string_sw|apply repeat_length]. Qed.
Print Assumptions C21_string.

(** the sort does not fail *)
Theorem C21_total :
  forall asc (v : list fl) check junk, (length v <= length junk)%nat ->
  exists r, LexSort false [] junk (Z.of_nat (length v)) None [Col (at_index (COMPARE_LT_float asc) v) check] = Some r.
Proof. intros. eapply (argsort_total (fun _ => True) NaN); eauto; [apply sw_on_all, float_sw|now apply Forall_forall]. Qed.
Print Assumptions C21_total.

Example C21_example :
  LexSort false [] (repeat 0 6) 6 None [Col (at_index (COMPARE_LT_float false) [Fin 1; NaN; Fin 3; Fin 1; PInf; NaN]) false] = Some [4; 2; 0; 3; 1; 5].
Proof. reflexivity. Qed.

(** ** C22.  [par_run ... ts]: the eight work indices make their steps in the order [ts].  Every complete run ends with the
    stable sort; the calls that run at the same time touch different rows; a work index that is not finished can always
    make its next step, and there are at most 45 steps. *)
Section C22.
  Context (E : Type) (cmp : E -> E -> option bool) (lt : E -> E -> bool) (check : bool) (a ws : list E).
  Let n := Z.of_nat (length a).
  Let run ts := par_run cmp check (end_positions n) n (par_init a ws) ts.

  Theorem C22_sorts :
    forall ts s, strict_weak lt -> compares lt cmp a -> length ws = length a ->
    run ts = Some s -> forallb is_fin (ps_pc s) = true -> stable_sort lt a (ps_arr s).
  Proof. intros ts s sw Hc Hw H F. exact (par_sorts cmp lt sw check a ws Hc Hw ts s H F). Qed.

  (** each sort and merge once, a merge after both halves *)
  Theorem C22_once :
    forall ts s, strict_weak lt -> compares lt cmp a -> length ws = length a -> run ts = Some s ->
    let calls := par_calls cmp check (end_positions n) n (par_init a ws) ts in
    NoDup calls /\ (forall p l k r, calls = p ++ (S l, k) :: r -> In (l, 2 * k) p /\ In (l, 2 * k + 1) p) /\
    (forallb is_fin (ps_pc s) = true -> Permutation calls all_calls).
  Proof. intros ts s sw Hc Hw H. exact (par_calls_ok cmp lt sw check a ws Hc Hw ts s H). Qed.

  Theorem C22_no_race :
    forall ts s t1 t2 l1 i1 l2 i2, strict_weak lt -> compares lt cmp a -> length ws = length a -> run ts = Some s -> t1 <> t2 ->
    nth_error (ps_pc s) t1 = Some (Call l1 i1 true) -> nth_error (ps_pc s) t2 = Some (Call l2 i2 true) ->
    exists a1 b1 a2 b2, call_range (end_positions n) n l1 i1 = Some (a1, b1) /\ call_range (end_positions n) n l2 i2 = Some (a2, b2) /\
      (b1 <= a2 \/ b2 <= a1) /\ 0 <= a1 /\ b1 <= n /\ 0 <= a2 /\ b2 <= n.
  Proof. intros ts s t1 t2 l1 i1 l2 i2 sw Hc Hw. exact (par_no_race cmp lt sw check a ws Hc Hw ts s t1 t2 l1 i1 l2 i2). Qed.

  Theorem C22_progress :
    forall ts s t p, strict_weak lt -> compares lt cmp a -> length ws = length a -> run ts = Some s ->
    nth_error (ps_pc s) t = Some p -> p <> Fin8 -> exists s', run (ts ++ [t]) = Some s'.
  Proof. intros ts s t p sw Hc Hw. exact (par_progress cmp lt sw check a ws Hc Hw ts s t p). Qed.

  Theorem C22_bounded :
    forall ts s, strict_weak lt -> compares lt cmp a -> length ws = length a -> run ts = Some s -> (length ts <= 45)%nat.
  Proof. intros ts s sw Hc Hw. exact (par_bounded cmp lt sw check a ws Hc Hw ts s). Qed.
End C22.
Print Assumptions C22_sorts.
Print Assumptions C22_once.
Print Assumptions C22_no_race.
Print Assumptions C22_progress.
Print Assumptions C22_bounded.

Theorem C22_same_as_sequential :
  forall junk c lt a ts r, strict_weak lt -> compares lt (c_lt c) a -> (length a <= length junk)%nat ->
  par_amergesort true ts junk c a = Some r -> par_amergesort false [] junk c a = Some r.
Proof. exact par_same. Qed.
Print Assumptions C22_same_as_sequential.

(* two complete runs in different orders *)
Definition ex_rows : list Z := [9; 3; 7; 1; 8; 2; 6; 0; 5; 4; 9; 3; 7; 1; 8; 2].
Definition ex_run (ts : list nat) : option (list Z * bool) :=
  match par_run (fun x y => Some (x <? y)) false (end_positions 16) 16 (par_init ex_rows (repeat 0 16)) ts with
  | Some s => Some (ps_arr s, forallb is_fin (ps_pc s)) | None => None end.
Example C22_example :
  ex_run (concat (map (fun t => repeat t 3) [0;1;2;3;4;5;6;7])%nat ++ [1;1;1;3;3;3;3;3;3;5;5;5;7;7;7;7;7;7;7;7])%nat = Some ([0; 1; 1; 2; 2; 3; 3; 4; 5; 6; 7; 7; 8; 8; 9; 9], true) /\
  ex_run (concat (map (fun t => repeat t 3) [7;6;5;4;3;2;1;0])%nat ++ [6;6;6;4;4;4;4;4;4;2;2;2;0;0;0;0;0;0;0;0])%nat = Some ([0; 1; 1; 2; 2; 3; 3; 4; 5; 6; 7; 7; 8; 8; 9; 9], true).
Proof. split; vm_compute; reflexivity. Qed.

(** ** C23.  [lts]: the orders of the columns k1, ..., km, each with its own direction *)
Theorem C23_lexsort :
  forall threading ts junk n cols lts r, 0 <= n -> columns_ok (arange n) cols lts -> (Z.to_nat n <= length junk)%nat ->
  LexSort threading ts junk n None cols = Some r -> argsort (lex_lt lts) n r.
Proof. exact LexSort_ok. Qed.
Print Assumptions C23_lexsort.

(** with index=: the given rows *)
Theorem C23_index :
  forall threading ts junk n index cols lts r, columns_ok index cols lts -> (length index <= length junk)%nat ->
  LexSort threading ts junk n (Some index) cols = Some r -> stable_sort (lex_lt lts) index r.
Proof. exact LexSort_index_ok. Qed.
Print Assumptions C23_index.

(** the columns of the code have such orders *)
Theorem C23_columns :
  (forall asc (v : list Z), strict_weak (by_value 0 (COMPARE_LT_int asc) v) /\ compares (by_value 0 (COMPARE_LT_int asc) v) (at_index (COMPARE_LT_int asc) v) (arange (Z.of_nat (length v)))) /\
  (forall asc (v : list fl), strict_weak (by_value NaN (COMPARE_LT_float asc) v) /\ compares (by_value NaN (COMPARE_LT_float asc) v) (at_index (COMPARE_LT_float asc) v) (arange (Z.of_nat (length v)))) /\
  (forall asc k (v : list (list Z)), Forall (fun s => length s = k) v ->
    strict_weak (by_value (repeat 0 k) (STRING_LT asc) v) /\ compares (by_value (repeat 0 k) (STRING_LT asc) v) (at_index (STRING_LT asc) v) (arange (Z.of_nat (length v)))) /\
  (forall asc k (v : list (list Z)), Forall (fun s => length s = k) v ->
    strict_weak (by_value (repeat 0 k) (VOID_LT asc) v) /\ compares (by_value (repeat 0 k) (VOID_LT asc) v) (at_index (VOID_LT asc) v) (arange (Z.of_nat (length v)))).
Proof.
  assert (R : forall T (d : T) lt v, compares (by_value d lt v) (at_index lt v) (arange (Z.of_nat (length v)))) by (intros; apply at_index_ok; intros i Hi; now apply arange_In).
  split; [|split; [|split]]; intros; (split; [|apply R]).
  - apply (by_value_sw (fun _ => True)); auto; [apply sw_on_all, int_sw|now apply Forall_forall].
  - apply (by_value_sw (fun _ => True)); auto; [apply sw_on_all, float_sw|now apply Forall_forall].
  - apply (by_value_sw (fun s => length s = k)); auto; [apply string_sw|apply repeat_length].
  - apply (by_value_sw (fun s => length s = k)); auto; [apply void_sw|apply repeat_length].
Qed.
Print Assumptions C23_columns.

Example C23_example :
  LexSort false [] (repeat 0 5) 5 None [Col (at_index (COMPARE_LT_int false) [1; 2; 3; 4; 5]) false; Col (at_index (COMPARE_LT_int true) [7; 6; 7; 6; 7]) false]
  = Some [3; 1; 4; 2; 0].
Proof. reflexivity. Qed.

(** ** C24 *)
Theorem C24_issorted_int :
  forall ord threaded seen (a : list Z), fair ord ->
  exists b, IsSorted Z.geb (fun _ => false) ord threaded seen a = Some b /\
    (b = true <-> forall i j x y, (i < j)%nat -> nth_error a i = Some x -> nth_error a j = Some y -> x <= y).
Proof.
  intros ord threaded seen a Ho. destruct (IsSorted_ok Z.geb (fun _ => false) ltac:(auto) ltac:(intros; lia) ord threaded seen a Ho) as (b & E & H).
  exists b. split; auto. rewrite H. split.
  - intros (l & r & -> & F & S) i j x y Hij Hi Hj. destruct r as [|z r]; [|inversion F; discriminate]. rewrite app_nil_r in *. specialize (S i j x y Hij Hi Hj). lia.
  - intros S. exists a, []. split; [now rewrite app_nil_r|]. split; auto. intros i j x y Hij Hi Hj. specialize (S i j x y Hij Hi Hj). lia.
Qed.
Print Assumptions C24_issorted_int.

Theorem C24_issorted_float :
  forall ord threaded seen (a : list fl), fair ord ->
  exists b, IsSorted (fun x y => fle y x) is_nan ord threaded seen a = Some b /\ (b = true <-> nondecreasing (fun x y => fle y x) is_nan a).
Proof.
  intros. apply IsSorted_ok; auto.
  - intros [| |x|] [| |y|]; cbn; auto; discriminate.
  - intros [| |x|] [| |y|] [| |z|]; cbn; auto; try discriminate. unfold fle, flt, feq; cbn. rewrite !Bool.orb_true_iff. lia.
Qed.
Print Assumptions C24_issorted_float.

(** strings: unsigned bytes *)
Theorem C24_issorted_string :
  forall k ord threaded seen (a : list (list Z)), fair ord -> Forall (fun s => length s = k) a ->
  exists b, IsSorted (fun x y => (length x =? k)%nat && (length y =? k)%nat && negb (STRING_LT true x y)) (fun _ => false) ord threaded seen a = Some b /\
    (b = true <-> sorted (STRING_LT true) a).
Proof.
  intros k ord threaded seen a Ho Ha. destruct (string_sw true k) as [SA ST].
  destruct (IsSorted_ok (fun x y => (length x =? k)%nat && (length y =? k)%nat && negb (STRING_LT true x y)) (fun _ => false)) with (ord := ord) (threaded := threaded) (seen := seen) (a := a)
    as (b & E & H); auto.
  { intros x y z H1 H2. apply andb_prop in H1 as [H1 N1], H2 as [H2 N2]. apply andb_prop in H1 as [Lx Ly], H2 as [Ly' Lz].
    rewrite Lx, Lz. cbn [andb]. apply Bool.negb_true_iff in N1, N2. apply Bool.negb_true_iff. apply Nat.eqb_eq in Lx, Ly, Lz.
    destruct (STRING_LT true x z) eqn:X; auto. destruct (ST x y z Lx Ly Lz X); congruence. }
  exists b. split; auto. rewrite H. rewrite Forall_forall in Ha. split.
  - intros (l & r & -> & F & S) i j x y Hij Hi Hj. destruct r as [|z r]; [|inversion F; discriminate]. rewrite app_nil_r in *. specialize (S i j x y Hij Hi Hj).
    apply andb_prop in S as [_ S]. now apply Bool.negb_true_iff.
  - intros S. exists a, []. split; [now rewrite app_nil_r|]. split; auto. intros i j x y Hij Hi Hj. specialize (S i j x y Hij Hi Hj).
    rewrite (Ha x), (Ha y), Nat.eqb_refl, S by (eapply nth_error_In; eauto). auto.
Qed.
Print Assumptions C24_issorted_string.

Example C24_example :
  IsSorted (fun x y => fle y x) is_nan in_order false (fun _ => true) [NInf; Fin 2; Fin 2; NaN; NaN] = Some true /\
  IsSorted (fun x y => fle y x) is_nan in_order false (fun _ => true) [NInf; NaN; Fin 2] = Some false.
Proof. split; reflexivity. Qed.

(** ** C25.  [v]: items of k bytes; [index] lists rows of [v] in the order [lt], which makes equal only identical items.
    [grouping]: see SortSpec.v.  Missing: items of 7 bytes in descending order (C25_seven_refuted), 0.0 and -0.0
    (C25_zero_refuted), base index 0 (another meaning of the counts, C25_base_refuted) and an empty index
    (C25_empty_refuted). *)
Theorem C25_groups_partial :
  forall k base lt (v : list (list Z)) index junk, k <> 7%nat -> Forall (item k) v ->
  (forall x y, In x v -> In y v -> lt x y = false -> lt y x = false -> x = y) ->
  (forall j, In j index -> 0 <= j < Z.of_nat (length v)) -> sorted lt (map (fun i => nth (Z.to_nat i) v []) index) ->
  index <> [] -> base <> 0 \/ ~ (k = 1 \/ k = 2 \/ k = 4 \/ k = 8)%nat ->
  exists key first cnt, GroupFromLexSort item_differ (item_shift k) base v index junk = Some (key, first, cnt) /\
    length key = length v /\ length cnt = S (length first) /\ nth_error cnt 0 = Some 0 /\
    grouping (fun i => nth (Z.to_nat i) v []) base 1 index key first cnt /\
    (forall j, 0 <= j < Z.of_nat (length v) -> ~ In j index -> zrd key j = Some junk).
Proof. exact group_items. Qed.
Print Assumptions C25_groups_partial.

Theorem C25_base0_partial :
  forall k lt (v : list (list Z)) index junk, (k = 1 \/ k = 2 \/ k = 4 \/ k = 8)%nat -> Forall (item k) v ->
  (forall x y, In x v -> In y v -> lt x y = false -> lt y x = false -> x = y) ->
  (forall j, In j index -> 0 <= j < Z.of_nat (length v)) -> sorted lt (map (fun i => nth (Z.to_nat i) v []) index) ->
  exists key first cnt, GroupFromLexSort item_differ (item_shift k) 0 v index junk = Some (key, first, cnt) /\
    length key = length v /\ length cnt = S (length first) /\
    grouping (fun i => nth (Z.to_nat i) v []) 0 0 index key first cnt.
Proof. exact group_items_zero. Qed.
Print Assumptions C25_base0_partial.

(** two rows have the same key exactly when they have the same value *)
Theorem C25_keys :
  forall (K : Type) (val : Z -> K) base off index key first cnt, grouping val base off index key first cnt ->
  forall i j, In i index -> In j index -> (zrd key i = zrd key j <-> val i = val j).
Proof. exact (@grouping_keys). Qed.
Print Assumptions C25_keys.

(** with cutoffs: the groups of each partition, numbered through; the index becomes one of the whole array; the last array has the numbers of groups
    up to each partition *)
Theorem C25_cutoffs_partial :
  forall k lt (v : list (list Z)) index junk cutoffs, (k = 1 \/ k = 2 \/ k = 4 \/ k = 8)%nat -> Forall (item k) v ->
  (forall x y, In x v -> In y v -> lt x y = false -> lt y x = false -> x = y) -> length index = length v ->
  cutoffs_ok 0 (Z.of_nat (length v)) cutoffs ->
  (forall p, In p (parts 0 cutoffs) -> forall j, In j (rows index (fst p) (snd p)) -> 0 <= j < snd p) ->
  (forall p, In p (parts 0 cutoffs) -> sorted lt (map (fun j => nth (Z.to_nat (fst p + j)) v []) (rows index (fst p) (snd p)))) ->
  exists keys idx first cnt us, GroupFromLexSort_cutoffs item_differ (item_shift k) v index junk cutoffs = Some (keys, idx, first, cnt, us) /\
    length keys = length v /\ length us = length cutoffs /\ length cnt = S (length first) /\ nth_error cnt 0 = Some 0 /\
    idx = concat (map (fun p => map (fun i => i + fst p) (rows index (fst p) (snd p))) (parts 0 cutoffs)) /\
    grouping (fun i => (partition_of cutoffs i, nth (Z.to_nat i) v [])) 1 1 idx keys first cnt /\
    (forall k u, nth_error us k = Some u -> u = Z.of_nat (countb (fun i => (partition_of cutoffs i <=? k)%nat) first)).
Proof. exact group_items_cutoffs. Qed.
Print Assumptions C25_cutoffs_partial.

Example C25_example :
  GroupFromLexSort item_differ (item_shift 3) 1 [[2;0;0]; [1;0;0]; [2;0;0]; [3;0;0]] [1; 0; 2; 3] 9 = Some ([2; 1; 2; 3], [1; 0; 3], [0; 1; 2; 1]) /\
  GroupFromLexSort_cutoffs item_differ (item_shift 1) [[2]; [1]; [2]; [2]; [2]] [1; 0; 2; 0; 1] 9 [3; 5] = Some ([2; 1; 2; 3; 3], [1; 0; 2; 3; 4], [1; 0; 3], [0; 1; 2; 2], [2; 3]).
Proof. split; reflexivity. Qed.

(** different items of 7 bytes get the same key *)
Theorem C25_seven_refuted :
  exists v index key first cnt, Forall (item 7) v /\ sorted (STRING_LT false) (map (fun i => nth (Z.to_nat i) v []) index) /\
  GroupFromLexSort item_differ (item_shift 7) 1 v index 0 = Some (key, first, cnt) /\
  zrd key 0 = zrd key 1 /\ nth 0 v [] <> nth 1 v [].
Proof. exact group7_bad. Qed.
Print Assumptions C25_seven_refuted.
(** the doubles 0.0, -0.0, 0.0, which are in order, get three groups: identical rows 0 and 2 have different keys *)
Theorem C25_zero_refuted :
  exists v index key first cnt, Forall (item 8) v /\ nth 0 v [] = nth 2 v [] /\
  index = [0; 1; 2] /\ v = [repeat 0 8; repeat 0 7 ++ [128]; repeat 0 8] /\
  GroupFromLexSort item_differ (item_shift 8) 1 v index 0 = Some (key, first, cnt) /\ zrd key 0 <> zrd key 2.
Proof. exact group_neg_zero_bad. Qed.
Print Assumptions C25_zero_refuted.
(** base index 0: the counts of 4-byte items are not shifted and end with what was in memory, those of 3-byte items are *)
Theorem C25_base_refuted :
  exists v4 v3 index key first cnt4 cnt3, Forall (item 4) v4 /\ Forall (item 3) v3 /\
  GroupFromLexSort item_differ (item_shift 4) 0 v4 index 77 = Some (key, first, cnt4) /\
  GroupFromLexSort item_differ (item_shift 3) 0 v3 index 77 = Some (key, first, cnt3) /\ cnt4 = [2; 1; 77] /\ cnt3 = [0; 2; 1].
Proof. exact group_base0_bad. Qed.
Print Assumptions C25_base_refuted.
Theorem C25_empty_refuted :
  exists cnt, GroupFromLexSort item_differ (item_shift 4) 1 [] [] 77 = Some ([], [], cnt) /\ cnt = [77].
Proof. exact group_empty_bad. Qed.
Print Assumptions C25_empty_refuted.
(** with cutoffs, items of 3 bytes: a partition writes outside its part of the counts *)
Theorem C25_cutoffs_refuted :
  exists v index cutoffs, Forall (item 3) v /\ cutoffs_ok 0 (Z.of_nat (length v)) cutoffs /\
  (forall p, In p (parts 0 cutoffs) -> sorted (STRING_LT true) (map (fun j => nth (Z.to_nat (fst p + j)) v []) (rows index (fst p) (snd p)))) /\
  GroupFromLexSort_cutoffs item_differ (item_shift 3) v index 0 cutoffs = None.
Proof. exact group_cutoffs_bad. Qed.
Print Assumptions C25_cutoffs_refuted.

(** ** C49.  The in-place sorts.  Missing: byte strings (C49_string_refuted) and the merge sort of doubles that differ
    but are the same as floats (C49_double_refuted). *)
Theorem C49_sort_partial :
  forall (T : Type) (P : T -> Prop) cmp cmpf mode (junk a : list T), strict_weak cmp -> (forall x y, P x -> P y -> cmpf x y = cmp x y) -> Forall P a ->
  Z.of_nat (length a) < 2 ^ 63 -> (length a <= length junk)%nat ->
  exists r, SortArray cmp cmpf mode junk a = Some r /\ Permutation a r /\ sorted cmp r.
Proof. exact (@SortArray_ok). Qed.
Print Assumptions C49_sort_partial.
Theorem C49_int :
  forall mode (junk a : list Z), Z.of_nat (length a) < 2 ^ 63 -> (length a <= length junk)%nat ->
  exists r, SortArray Z.ltb Z.ltb mode junk a = Some r /\ Permutation a r /\ sorted Z.ltb r.
Proof. intros. eapply (SortArray_ok (fun _ => True)); eauto; [apply ltb_sw|now apply Forall_forall]. Qed.
Print Assumptions C49_int.
Example C49_example :
  map (fun m => SortArray Z.ltb Z.ltb m (repeat 0 20) [9; 3; 7; 1; 8; 2; 6; 0; 5; 4; 9; 3; 7; 1; 8; 2; 11; 13; 12; 10]) [QSORT; MERGE; HEAP]
  = repeat (Some [0; 1; 1; 2; 2; 3; 3; 4; 5; 6; 7; 7; 8; 8; 9; 9; 10; 11; 12; 13]) 3.
Proof. vm_compute. reflexivity. Qed.
(** the items "ca" and "ab" become "ac" and "ab" *)
Theorem C49_string_refuted :
  exists bytes r, SortArray_string MERGE (repeat 0 4) bytes 2 = Some r /\ bytes = [99; 97; 97; 98] /\ r = [97; 99; 97; 98].
Proof. exact string_sort_bad. Qed.
Print Assumptions C49_string_refuted.
Theorem C49_double_refuted :
  exists a r, SortArray (COMPARE_LT_sf true) (COMPARE_LT_as_float true) MERGE (repeat d1 2) a = Some r /\ ~ sorted (COMPARE_LT_sf true) r.
Proof. exact float_sort_bad. Qed.
Print Assumptions C49_double_refuted.

(** ** C50.  LexSort with cutoffs: every partition is sorted by itself, in any order of the threads; row numbers are
    relative to the partition.  Missing: index= together with cutoffs= (C50_index_refuted). *)
Theorem C50_cutoffs_partial :
  forall ord junk cutoffs n cols lts, fair ord -> cutoffs_ok 0 n cutoffs -> n <= Z.of_nat (length junk) -> columns_ok (arange n) cols lts ->
  exists r, LexSort_cutoffs ord junk None cutoffs n cols = Some r /\ length r = Z.to_nat n /\
    forall p, In p (parts 0 cutoffs) -> argsort (shifted (fst p) (lex_lt lts)) (snd p) (rows r (fst p) (snd p)).
Proof. exact LexSort_cutoffs_ok. Qed.
Print Assumptions C50_cutoffs_partial.
Example C50_example : LexSort_cutoffs (fun _ l => rev l) [0; 0; 0; 0] None [2; 2; 4] 4 [ex_col] = Some [1; 0; 1; 0].
Proof. reflexivity. Qed.
Theorem C50_index_refuted :
  LexSort_cutoffs in_order [0; 0; 0; 0] (Some [1; 1; 0; 0]) [2; 4] 4 [ex_col] = LexSort_cutoffs in_order [0; 0; 0; 0] None [2; 4] 4 [ex_col] /\
  LexSort_cutoffs in_order [0; 0; 0; 0] (Some [1; 0]) [2; 4] 4 [ex_col] = None.
Proof. exact lex_cutoffs_index_bad. Qed.
Print Assumptions C50_index_refuted.

(** ** C51.  The comparison of raw items is a strict weak order for each size and direction; it is neither the order of
    the bytes nor, for items with a last odd byte, reversed for the descending direction. *)
Theorem C51_void_partial : forall asc n,
  (forall x y, length x = n -> length y = n -> VOID_LT asc x y = true -> VOID_LT asc y x = false) /\
  (forall x y z, length x = n -> length y = n -> length z = n -> VOID_LT asc x z = true -> VOID_LT asc x y = true \/ VOID_LT asc y z = true).
Proof. intros asc n. exact (void_sw asc n). Qed.
Print Assumptions C51_void_partial.
Theorem C51_string : forall asc n,
  (forall x y, length x = n -> length y = n -> STRING_LT asc x y = true -> STRING_LT asc y x = false) /\
  (forall x y z, length x = n -> length y = n -> length z = n -> STRING_LT asc x z = true -> STRING_LT asc x y = true \/ STRING_LT asc y z = true).
Proof. intros asc n. exact (string_sw asc n). Qed.
Print Assumptions C51_string.
Example C51_example : VOID_LT true (repeat 1 11) (repeat 1 9 ++ [2; 0]) = true /\ VOID_LT true (repeat 1 9 ++ [2; 0]) (repeat 1 11) = false.
Proof. split; reflexivity. Qed.
Theorem C51_order_refuted :
  exists x y, item 2 x /\ item 2 y /\ STRING_LT true x y = true /\ VOID_LT true x y = false /\ VOID_LT true y x = true.
Proof. exact void_order_bad. Qed.
Print Assumptions C51_order_refuted.
Theorem C51_descending_refuted :
  exists x y, item 3 x /\ item 3 y /\ VOID_LT true x y = true /\ VOID_LT false x y = true.
Proof. exact void_desc_bad. Qed.
Print Assumptions C51_descending_refuted.
