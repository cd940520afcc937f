(** Single columns, items of bytes, in-place sorts, and the counterexamples. *)
From Coq Require Import SpecFloat.
From Verif Require Import Base Mem MemLemmas Num SortModel SortSpec SortProofs Sort2Proofs Sort3Proofs Sort4Proofs Sort5Proofs Sort6Proofs Sort7Proofs.
Local Open Scope Z_scope.

Lemma value_columns {T} (P : T -> Prop) (d : T) lt (v : list T) check : sw_on P lt -> P d -> Forall P v ->
  columns_ok (arange (Z.of_nat (length v))) [Col (at_index lt v) check] [by_value d lt v].
Proof.
  intros sw Hd Hv. constructor; [|constructor]. split; [eapply by_value_sw; eauto|]. apply at_index_ok. intros i Hi. apply arange_In in Hi. auto.
Qed.
Lemma columns_rows rows rows' cols lts : (forall x, In x rows' -> In x rows) -> columns_ok rows cols lts -> columns_ok rows' cols lts.
Proof. intros H F. induction F as [|c lt cs lts [A B] F IH]; constructor; auto. split; auto. eapply compares_sub; eauto. Qed.

Lemma argsort_values {T} (P : T -> Prop) (d : T) lt (v : list T) check threading ts junk r : sw_on P lt -> P d -> Forall P v ->
  (length v <= length junk)%nat -> LexSort threading ts junk (Z.of_nat (length v)) None [Col (at_index lt v) check] = Some r ->
  argsort (by_value d lt v) (Z.of_nat (length v)) r.
Proof.
  intros sw Hd Hv Hj H.
  pose proof (LexSort_ok threading ts junk (Z.of_nat (length v)) [Col (at_index lt v) check] [by_value d lt v] r ltac:(lia)
    (value_columns P d lt v check sw Hd Hv) ltac:(lia) H) as [A B]. exact (conj A B).
Qed.
Lemma argsort_total {T} (P : T -> Prop) (d : T) lt (v : list T) check junk : sw_on P lt -> P d -> Forall P v ->
  (length v <= length junk)%nat -> exists r, LexSort false [] junk (Z.of_nat (length v)) None [Col (at_index lt v) check] = Some r.
Proof.
  intros sw Hd Hv Hj. pose proof (value_columns P d lt v check sw Hd Hv) as C. inversion C as [|? ? ? ? [A B] _]; subst.
  destruct (par_amergesort_total junk (Col (at_index lt v) check) (by_value d lt v) (arange (Z.of_nat (length v))) A B) as (r & E); [rewrite arange_length; lia|].
  exists r. unfold LexSort. cbn [lex_loop hd]. now rewrite E.
Qed.
Lemma argsort_nan asc v r : argsort (by_value NaN (COMPARE_LT_float asc) v) (Z.of_nat (length v)) r -> nan_last v r.
Proof.
  intros [_ S] i j x y Hij Hx Hy. specialize (S i j x y Hij Hx Hy). unfold by_value, COMPARE_LT_float in S.
  destruct (nth (Z.to_nat x) v NaN), (nth (Z.to_nat y) v NaN); auto; try discriminate; intros _; destruct S as [S|[S _]]; destruct asc; discriminate.
Qed.

(** ** The parallel and the sequential sort agree *)
Lemma par_same junk c lt a ts r : strict_weak lt -> compares lt (c_lt c) a -> (length a <= length junk)%nat ->
  par_amergesort true ts junk c a = Some r -> par_amergesort false [] junk c a = Some r.
Proof.
  intros sw Hc Hj H. destruct (par_amergesort_total junk c lt a sw Hc Hj) as (r' & E). rewrite E. f_equal.
  pose proof (par_amergesort_ok _ _ _ _ _ _ _ sw Hc Hj H) as S1. pose proof (par_amergesort_ok _ _ _ _ _ _ _ sw Hc Hj E) as S2.
  eapply stable_unique; eauto.
Qed.

(** ** In-place sorts *)
Lemma stable_perm_sorted {E} (lt : E -> E -> bool) a r : stable_sort lt a r -> Permutation a r /\ sorted lt r.
Proof. intros (A & B & _). auto. Qed.
Lemma SortArray_ok {T} (P : T -> Prop) cmp cmpf mode (junk a : list T) : strict_weak cmp -> (forall x y, P x -> P y -> cmpf x y = cmp x y) -> Forall P a ->
  Z.of_nat (length a) < 2 ^ 63 -> (length a <= length junk)%nat ->
  exists r, SortArray cmp cmpf mode junk a = Some r /\ Permutation a r /\ sorted cmp r.
Proof.
  intros sw Hf Ha Hn Hj. assert (C : compares cmp (fun x y => Some (cmp x y)) a) by (intros x y _ _; auto). destruct mode; cbn [SortArray].
  - apply quicksort_ok; auto.
  - assert (C' : compares cmp (fun x y => Some (cmpf x y)) a). { intros x y Hx Hy. rewrite Forall_forall in Ha. now rewrite Hf by auto. }
    destruct (mergesort_ok (fun x y => Some (cmpf x y)) cmp sw false junk a [] [] 0 (Z.of_nat (length a))) as (r & E1 & S1); auto.
    rewrite app_nil_l, app_nil_r in E1. exists ([] ++ r ++ []). split; auto. rewrite app_nil_l, app_nil_r. now apply stable_perm_sorted.
  - destruct (heapsort_ok (fun x y => Some (cmp x y)) cmp sw [] [] a (Z.of_nat (length a))) as (r & E1 & S1); auto.
    exists r. rewrite app_nil_l, !app_nil_r in E1. cbn [length] in E1. change (Z.of_nat 0) with 0 in E1. rewrite app_nil_l in E1. auto.
Qed.

(** ** Items of bytes *)
Lemma le_word_inj k : forall x y, item k x -> item k y -> le_word x = le_word y -> x = y.
Proof.
  induction k as [|k IH]; intros [|b x] [|c y] [Lx Fx] [Ly Fy]; try discriminate; auto. cbn [le_word]. inversion Fx; subst. inversion Fy; subst. intros E.
  assert (b = c) by lia. subst c. f_equal. apply IH; [split; auto|split; auto|lia].
Qed.
Lemma bytes_eqb_eq x y : bytes_eqb x y = true <-> x = y.
Proof. unfold bytes_eqb. destruct (list_eq_dec Z.eq_dec x y); split; congruence. Qed.
Lemma item_differ_ok k x y : k <> 7%nat -> item k x -> item k y -> (item_differ x y = false <-> x = y).
Proof.
  intros Hk Hx Hy.
  assert (W : negb (le_word x =? le_word y) = false <-> x = y).
  { rewrite Bool.negb_false_iff, Z.eqb_eq. split; [now apply (le_word_inj k)|congruence]. }
  assert (B : BINARY_LT x y = false <-> x = y).
  { unfold BINARY_LT. destruct Hx as [Lx _]. rewrite Lx. destruct (Nat.eqb_spec k 7); [easy|]. cbn [andb]. rewrite Bool.negb_false_iff. apply bytes_eqb_eq. }
  unfold item_differ. destruct (length x) as [|[|[|[|[|[|[|[|[|m]]]]]]]]]; auto.
Qed.
Lemma item_shift_ok k : item_shift k = true <-> ~ (k = 1 \/ k = 2 \/ k = 4 \/ k = 8)%nat.
Proof. unfold item_shift. destruct (Nat.eqb_spec k 1), (Nat.eqb_spec k 2), (Nat.eqb_spec k 4), (Nat.eqb_spec k 8); simpl; split; intros; try discriminate; auto; lia. Qed.

Lemma group_items k base lt (v : list (list Z)) index junk : k <> 7%nat -> Forall (item k) v ->
  (forall x y, In x v -> In y v -> lt x y = false -> lt y x = false -> x = y) ->
  (forall j, In j index -> 0 <= j < Z.of_nat (length v)) -> sorted lt (map (fun i => nth (Z.to_nat i) v []) index) ->
  index <> [] -> base <> 0 \/ ~ (k = 1 \/ k = 2 \/ k = 4 \/ k = 8)%nat ->
  exists key first cnt, GroupFromLexSort item_differ (item_shift k) base v index junk = Some (key, first, cnt) /\
    length key = length v /\ length cnt = S (length first) /\ nth_error cnt 0 = Some 0 /\
    grouping (fun i => nth (Z.to_nat i) v []) base 1 index key first cnt /\
    (forall j, 0 <= j < Z.of_nat (length v) -> ~ In j index -> zrd key j = Some junk).
Proof.
  intros Hk Hv He Hr Hs Hn Hb. apply (GroupFromLexSort_ok [] item_differ lt); auto.
  - rewrite Forall_forall in Hv. intros x y Hx Hy. apply (item_differ_ok k); auto.
  - destruct Hb; [now right|left; now apply item_shift_ok].
Qed.
Lemma group_items_zero k lt (v : list (list Z)) index junk : (k = 1 \/ k = 2 \/ k = 4 \/ k = 8)%nat -> Forall (item k) v ->
  (forall x y, In x v -> In y v -> lt x y = false -> lt y x = false -> x = y) ->
  (forall j, In j index -> 0 <= j < Z.of_nat (length v)) -> sorted lt (map (fun i => nth (Z.to_nat i) v []) index) ->
  exists key first cnt, GroupFromLexSort item_differ (item_shift k) 0 v index junk = Some (key, first, cnt) /\
    length key = length v /\ length cnt = S (length first) /\
    grouping (fun i => nth (Z.to_nat i) v []) 0 0 index key first cnt.
Proof.
  intros Hk Hv He Hr Hs. assert (item_shift k = false) as ->. { destruct (item_shift k) eqn:E; auto. apply item_shift_ok in E. tauto. }
  apply (GroupFromLexSort_zero [] item_differ lt); auto. rewrite Forall_forall in Hv. intros x y Hx Hy. apply (item_differ_ok k); auto. lia.
Qed.
Lemma group_items_cutoffs k lt (v : list (list Z)) index junk cutoffs : (k = 1 \/ k = 2 \/ k = 4 \/ k = 8)%nat -> Forall (item k) v ->
  (forall x y, In x v -> In y v -> lt x y = false -> lt y x = false -> x = y) -> length index = length v ->
  cutoffs_ok 0 (Z.of_nat (length v)) cutoffs ->
  (forall p, In p (parts 0 cutoffs) -> forall j, In j (rows index (fst p) (snd p)) -> 0 <= j < snd p) ->
  (forall p, In p (parts 0 cutoffs) -> sorted lt (map (fun j => nth (Z.to_nat (fst p + j)) v []) (rows index (fst p) (snd p)))) ->
  exists keys idx first cnt us, GroupFromLexSort_cutoffs item_differ (item_shift k) v index junk cutoffs = Some (keys, idx, first, cnt, us) /\
    length keys = length v /\ length us = length cutoffs /\ length cnt = S (length first) /\ nth_error cnt 0 = Some 0 /\
    idx = concat (map (fun p => map (fun i => i + fst p) (rows index (fst p) (snd p))) (parts 0 cutoffs)) /\
    grouping (fun i => (partition_of cutoffs i, nth (Z.to_nat i) v [])) 1 1 idx keys first cnt /\
    (forall k u, nth_error us k = Some u -> u = Z.of_nat (countb (fun i => (partition_of cutoffs i <=? k)%nat) first)).
Proof.
  intros Hk Hv He Hl Hc Hr Hs. assert (item_shift k = false) as ->. { destruct (item_shift k) eqn:E; auto. apply item_shift_ok in E. tauto. }
  apply (GroupFromLexSort_cutoffs_ok [] item_differ lt); auto. rewrite Forall_forall in Hv. intros x y Hx Hy. apply (item_differ_ok k); auto. lia.
Qed.

(** ** Counterexamples *)
Lemma string_sort_bad : exists bytes r, SortArray_string MERGE (repeat 0 4) bytes 2 = Some r /\
  (* two items of two bytes: "ca" and "ab" *)
  bytes = [99; 97; 97; 98] /\ r = [97; 99; 97; 98].
Proof. eexists _, _. split; [|split; reflexivity]. reflexivity. Qed.
(* 1 + 2^-40 and 1 as doubles *)
Definition d1eps : spec_float := S754_finite false 4503599627374592 (-52).
Definition d1 : spec_float := S754_finite false 4503599627370496 (-52).
Lemma float_sort_bad : exists a r, SortArray (COMPARE_LT_sf true) (COMPARE_LT_as_float true) MERGE (repeat d1 2) a = Some r /\ ~ sorted (COMPARE_LT_sf true) r.
Proof.
  exists [d1eps; d1], [d1eps; d1]. split; [vm_compute; reflexivity|]. intros S. specialize (S 0%nat 1%nat d1eps d1 ltac:(lia) eq_refl eq_refl). vm_compute in S. discriminate.
Qed.
(* [1; 0] is before [0; 1] for numpy (bytes in order), but not here *)
Lemma void_order_bad : exists x y, item 2 x /\ item 2 y /\ STRING_LT true x y = true /\ VOID_LT true x y = false /\ VOID_LT true y x = true.
Proof. exists [0; 1], [1; 0]. repeat split; auto; repeat constructor; lia. Qed.
Lemma void_desc_bad : exists x y, item 3 x /\ item 3 y /\ VOID_LT true x y = true /\ VOID_LT false x y = true.
Proof. exists [1; 1; 0], [1; 1; 1]. repeat split; auto; repeat constructor; lia. Qed.
Lemma group7_bad : exists v index key first cnt, Forall (item 7) v /\ sorted (STRING_LT false) (map (fun i => nth (Z.to_nat i) v []) index) /\
  GroupFromLexSort item_differ (item_shift 7) 1 v index 0 = Some (key, first, cnt) /\
  zrd key 0 = zrd key 1 /\ nth 0 v [] <> nth 1 v [].
Proof.
  exists [[1;1;1;1;1;1;2]; [1;1;1;1;1;1;1]], [0; 1], [1; 1], [0], [0; 2]. split; [repeat constructor; lia|]. split; [|split; [reflexivity|split; [reflexivity|discriminate]]].
  apply SS_sorted. repeat constructor.
Qed.
Lemma group_neg_zero_bad : exists v index key first cnt, Forall (item 8) v /\ nth 0 v [] = nth 2 v [] /\
  (* 0.0, -0.0, 0.0 in the order of the float sort *) index = [0; 1; 2] /\ v = [repeat 0 8; repeat 0 7 ++ [128]; repeat 0 8] /\
  GroupFromLexSort item_differ (item_shift 8) 1 v index 0 = Some (key, first, cnt) /\ zrd key 0 <> zrd key 2.
Proof.
  exists [repeat 0 8; repeat 0 7 ++ [128]; repeat 0 8], [0; 1; 2], [1; 2; 3], [0; 1; 2], [0; 1; 1; 1].
  split; [repeat constructor; lia|]. split; auto. split; auto. split; auto. split; [reflexivity|discriminate].
Qed.
Lemma group_base0_bad : exists v4 v3 index key first cnt4 cnt3, Forall (item 4) v4 /\ Forall (item 3) v3 /\
  GroupFromLexSort item_differ (item_shift 4) 0 v4 index 77 = Some (key, first, cnt4) /\
  GroupFromLexSort item_differ (item_shift 3) 0 v3 index 77 = Some (key, first, cnt3) /\ cnt4 = [2; 1; 77] /\ cnt3 = [0; 2; 1].
Proof.
  exists [[1;0;0;0]; [1;0;0;0]; [2;0;0;0]], [[1;0;0]; [1;0;0]; [2;0;0]], [0; 1; 2], [0; 0; 1], [0; 2], [2; 1; 77], [0; 2; 1].
  split; [repeat constructor; lia|]. split; [repeat constructor; lia|]. split; [reflexivity|]. split; [reflexivity|auto].
Qed.
Lemma group_empty_bad : exists cnt, GroupFromLexSort item_differ (item_shift 4) 1 [] [] 77 = Some ([], [], cnt) /\ cnt = [77].
Proof. eexists. split; reflexivity. Qed.
Lemma group_cutoffs_bad : exists v index cutoffs, Forall (item 3) v /\ cutoffs_ok 0 (Z.of_nat (length v)) cutoffs /\
  (forall p, In p (parts 0 cutoffs) -> sorted (STRING_LT true) (map (fun j => nth (Z.to_nat (fst p + j)) v []) (rows index (fst p) (snd p)))) /\
  GroupFromLexSort_cutoffs item_differ (item_shift 3) v index 0 cutoffs = None.
Proof.
  exists [[1;0;0]; [2;0;0]; [1;0;0]; [2;0;0]], [0; 1; 0; 1], [2; 4]. split; [repeat constructor; lia|]. split; [cbn; lia|]. split; [|reflexivity].
  intros p [<-|[<-|[]]]; apply SS_sorted; repeat constructor.
Qed.
Definition ex_col : column := Col (at_index (COMPARE_LT_int true) [5; 3; 4; 1]) false.
Lemma lex_cutoffs_index_bad :
  (* index= is not used: rows 3 and 2 of the first and rows 1 and 0 of the second partition are asked for *)
  LexSort_cutoffs in_order [0; 0; 0; 0] (Some [1; 1; 0; 0]) [2; 4] 4 [ex_col] = LexSort_cutoffs in_order [0; 0; 0; 0] None [2; 4] 4 [ex_col] /\
  (* a shorter index is written out of bounds *)
  LexSort_cutoffs in_order [0; 0; 0; 0] (Some [1; 0]) [2; 4] 4 [ex_col] = None.
Proof. split; reflexivity. Qed.
