(** C100: IsMember32 from its arguments to its results. C101: IsMemberCategorical likewise. *)
From Verif Require Import Base Mem MemLemmas Par HashModel HashSpec HashProofs HashMember IsmModel IsmSpec IsmProofs Ism2Proofs.
Local Open Scope Z_scope.

(** ** C100 *)
Theorem C100_ismember_partial : forall m a1 a2 xs ys args, fair (m_ord m) -> holds a1 xs -> holds a2 ys -> contiguous a1 -> contiguous a2 ->
  same_type (a_dtype a1) (a_dtype a2) -> comparable (a_dtype a1) -> 0 < a_item a1 -> plain a1 a2 xs ys -> args_ok args (a_len a2) ->
  exists r, PyIsMember32 m a1 a2 args = Ret r /\
    f_dtype r = rows_type (if as_text a1 a2 then Z.max (a_len a1) (a_len a2) else a_len a2) /\ found_rows (a_dtype a1) xs ys r.
Proof. exact ismember_ok. Qed.
Print Assumptions C100_ismember_partial.

(* arrays of the examples: int32 [7; 9; 7] and [9; 5; 9] *)
Definition ex_mach (junk : Z) : machine := mkMach true in_order (fun z => z) (fun s => Z.of_nat (length s)) (fun s => Z.of_nat (length s)) (fun _ _ => junk).
Definition ex_a : array := mkArr 5 4 3 4 0 [7; 0; 0; 0; 9; 0; 0; 0; 7; 0; 0; 0].
Definition ex_b : array := mkArr 5 4 3 4 0 [9; 0; 0; 0; 5; 0; 0; 0; 9; 0; 0; 0].
Ltac small_holds := constructor; [cbn; lia|cbn; auto; try lia|vm_compute; reflexivity|intros x I c J; cbn in I; repeat (destruct I as [<-|I]; [cbn in J; lia|]); destruct I].
Example C100_example :
  let xs := [[7; 0; 0; 0]; [9; 0; 0; 0]; [7; 0; 0; 0]] in let ys := [[9; 0; 0; 0]; [5; 0; 0; 0]; [9; 0; 0; 0]] in
  fair (m_ord (ex_mach 0)) /\ holds ex_a xs /\ holds ex_b ys /\ contiguous ex_a /\ contiguous ex_b /\ same_type (a_dtype ex_a) (a_dtype ex_b) /\
  comparable (a_dtype ex_a) /\ 0 < a_item ex_a /\ plain ex_a ex_b xs ys /\ args_ok (Some (1, None)) (a_len ex_b) /\
  PyIsMember32 (ex_mach 0) ex_a ex_b (Some (1, None)) = Ret (mkFound [0; 1; 0] 1 [-128; 0; -128]).
Proof.
  cbv zeta. split; [intros B l; apply Permutation_refl|]. split; [small_holds|]. split; [small_holds|]. split; [reflexivity|]. split; [reflexivity|].
  split; [now left|]. split; [left; cbn; lia|]. split; [cbn; lia|].
  split; [unfold plain; cbn; split; [discriminate|]; split; [discriminate|]; split; [lia|discriminate]|].
  split; [split; [now left|]; split; [cbn; lia|now left]|]. vm_compute. reflexivity.
Qed.
(* strings of widths 3 and 2: "ab" and "c" among "c", "ab" *)
Example C100_text_example :
  PyIsMember32 (ex_mach 0) (mkArr 18 3 2 3 0 [97; 98; 0; 99; 100; 0]) (mkArr 18 2 2 2 0 [99; 0; 97; 98]) (Some (1, None))
    = Ret (mkFound [1; 0] 1 [1; -128]).
Proof. vm_compute. reflexivity. Qed.

(** other types, items of no bytes and objects are refused *)
Theorem C100_refused : forall m a1 a2 xs ys args, holds a1 xs -> holds a2 ys ->
  ~ same_type (a_dtype a1) (a_dtype a2) \/ a_item a1 = 0 \/ a_dtype a1 = 17 -> PyIsMember32 m a1 a2 args = Throw.
Proof. exact ismember_refused. Qed.
Print Assumptions C100_refused.
Example C100_refused_example : ~ same_type 5 7 /\ holds (mkArr 7 8 0 8 0 []) [].
Proof. split; [intros [E|[(A & _)|(A & _)]]; [discriminate|cbn in A; lia..]|small_holds]. Qed.

(** long doubles and complex numbers of 16 bytes or more: nothing is compared, the results are what the new memory held *)
Theorem C100_unwritten : forall m a1 a2 xs ys args, holds a1 xs -> holds a2 ys -> contiguous a1 -> contiguous a2 ->
  a_dtype a1 = a_dtype a2 -> a_dtype a1 = 13 \/ a_dtype a1 = 15 \/ a_dtype a1 = 16 -> args_ok args (a_len a2) ->
  PyIsMember32 m a1 a2 args = Ret (mkFound (new_array m 0 (a_len a1)) (rows_type (a_len a2)) (new_array m 1 (a_len a1))).
Proof. exact ismember_unwritten. Qed.
Print Assumptions C100_unwritten.

(** so a long double is not found in an array that has it *)
Theorem C100_longdouble_refuted : exists m a xs r, fair (m_ord m) /\ holds a xs /\ contiguous a /\ length xs = 1%nat /\
  PyIsMember32 m a a None = Ret r /\ f_flags r = [0] /\ f_index r = [0].
Proof.
  exists (ex_mach 0), (zeros 13 16 1), [repeat 0 16]. eexists. split; [intros B l; apply Permutation_refl|]. split; [small_holds|].
  split; [reflexivity|]. split; [reflexivity|]. split; [vm_compute; reflexivity|]. split; reflexivity.
Qed.
Print Assumptions C100_longdouble_refuted.

(** the strides of an array are not looked at: the array [9; 8] that is every second item of [9; 5; 8] is looked up as [9; 5] *)
Theorem C100_strided_refuted : exists m a1 a2 xs ys r, fair (m_ord m) /\ holds a1 xs /\ holds a2 ys /\ contiguous a2 /\ a_dtype a1 = 5 /\ a_dtype a2 = 5 /\
  PyIsMember32 m a1 a2 (Some (1, None)) = Ret r /\ ~ found_rows 5 xs ys r.
Proof.
  exists (ex_mach 0), (mkArr 5 4 2 8 0 [9; 0; 0; 0; 5; 0; 0; 0; 8; 0; 0; 0]), (mkArr 5 4 1 4 0 [5; 0; 0; 0]), [[9; 0; 0; 0]; [8; 0; 0; 0]], [[5; 0; 0; 0]].
  eexists. split; [intros B l; apply Permutation_refl|]. split; [small_holds|]. split; [small_holds|]. split; [reflexivity|]. split; [reflexivity|].
  split; [reflexivity|]. split; [vm_compute; reflexivity|]. intros (rs & M & F & _). cbn in F.
  inversion M as [|x r xs' rs' _ M' E1 E2]; subst. inversion M' as [|x' r' xs'' rs'' R M'' E1 E2]; subst. cbn in F. injection F as F0 F1.
  destruct R as [(j & y & Hy & E & _)|(_ & ->)]; [|discriminate].
  assert (Iy : In y [[5; 0; 0; 0]]) by (eapply nth_error_In; exact Hy). destruct Iy as [<-|[]]. discriminate.
Qed.
Print Assumptions C100_strided_refuted.

(** a hint that is too small: the table is full, the lookup of an item that is not in it throws in a worker thread, and the process ends *)
Theorem C100_hint_refuted : exists m a1 a2 xs ys, fair (m_ord m) /\ holds a1 xs /\ holds a2 ys /\ contiguous a1 /\ contiguous a2 /\
  a_dtype a1 = 5 /\ a_dtype a2 = 5 /\ a_len a2 < 100 /\ PyIsMember32 m a1 a2 (Some (1, Some 1)) = UB.
Proof. exact ismember_hint. Qed.
Print Assumptions C100_hint_refuted.

(** ** C101 *)
Theorem C101_categorical_partial : forall m a1 a2 xs ys hmode hint, fair (m_ord m) -> holds a1 xs -> holds a2 ys -> contiguous a1 -> contiguous a2 ->
  same_type (a_dtype a1) (a_dtype a2) -> comparable (a_dtype a1) -> 0 < a_item a1 -> plain a1 a2 xs ys ->
  hmode = 1 \/ hmode = 2 -> room hint (a_len a2) -> (a_dtype a1 < 18 -> a_item a1 < 4 -> hmode = 2) ->
  a_len a1 < 2 ^ 63 -> (a_dtype a1 < 18 -> a_len a1 < 2100000000 -> a_len a2 < 2 ^ 31) ->
  exists r, PyIsMemberCategorical m a1 a2 hmode hint = Ret r /\
    c_dtype r = (if 18 <=? a_dtype a1 then rows_type (a_len a2) else if a_len a1 <? 2100000000 then 5 else 7) /\
    member_cat_spec (value_eq (a_dtype a1)) ys xs (c_index r, c_missed r).
Proof. exact categorical_ok. Qed.
Print Assumptions C101_categorical_partial.
Example C101_example :
  (a_dtype ex_a < 18 -> a_item ex_a < 4 -> 1 = 2) /\ room 0 (a_len ex_b) /\
  PyIsMemberCategorical (ex_mach 0) ex_a ex_b 1 0 = Ret (mkCats true 5 [0; 1; 0]) /\
  PyIsMemberCategorical (ex_mach 0) (mkArr 18 3 2 3 0 [97; 98; 0; 99; 0; 0]) (mkArr 18 2 2 2 0 [99; 0; 97; 98]) 1 0 = Ret (mkCats false 1 [2; 1]).
Proof. split; [cbn; lia|]. split; [split; [cbn; lia|now left]|]. split; vm_compute; reflexivity. Qed.

Theorem C101_refused : forall m a1 a2 xs ys hmode hint, holds a1 xs -> holds a2 ys ->
  ~ same_type (a_dtype a1) (a_dtype a2) \/ a_item a1 = 0 \/ a_dtype a1 = 17 -> PyIsMemberCategorical m a1 a2 hmode hint = Throw.
Proof. exact categorical_refused. Qed.
Print Assumptions C101_refused.

(** long doubles and complex numbers of 16 bytes or more: no value is missed, and the categories are what the new memory held *)
Theorem C101_unwritten : forall m a1 a2 xs ys hmode hint, holds a1 xs -> holds a2 ys -> contiguous a1 -> contiguous a2 ->
  a_dtype a1 = a_dtype a2 -> a_dtype a1 = 13 \/ a_dtype a1 = 15 \/ a_dtype a1 = 16 -> hmode = 1 \/ hmode = 2 ->
  PyIsMemberCategorical m a1 a2 hmode hint = Ret (mkCats false (if a_len a1 <? 2100000000 then 5 else 7) (new_array m 0 (a_len a1))).
Proof. exact categorical_unwritten. Qed.
Print Assumptions C101_unwritten.
Theorem C101_longdouble_refuted : exists m a xs r, fair (m_ord m) /\ holds a xs /\ contiguous a /\ length xs = 1%nat /\
  PyIsMemberCategorical m a a 2 0 = Ret r /\ c_index r = [99].
Proof.
  exists (ex_mach 99), (zeros 13 16 1), [repeat 0 16]. eexists. split; [intros B l; apply Permutation_refl|]. split; [small_holds|].
  split; [reflexivity|]. split; [reflexivity|]. split; [vm_compute; reflexivity|]. reflexivity.
Qed.
Print Assumptions C101_longdouble_refuted.

(** items of one byte in mode 1: the item is a position outside the table of 53 *)
Theorem C101_prime_refuted : exists m a1 a2 xs ys, fair (m_ord m) /\ holds a1 xs /\ holds a2 ys /\ contiguous a1 /\ contiguous a2 /\
  a_dtype a1 = 1 /\ a_dtype a2 = 1 /\ PyIsMemberCategorical m a1 a2 1 0 = UB.
Proof.
  exists (ex_mach 0), (mkArr 1 1 1 1 0 [60]), (mkArr 1 1 1 1 0 [1]), [[60]], [[1]]. split; [intros B l; apply Permutation_refl|].
  split; [small_holds|]. split; [small_holds|]. split; [reflexivity|]. split; [reflexivity|]. split; [reflexivity|]. split; [reflexivity|].
  vm_compute. reflexivity.
Qed.
Print Assumptions C101_prime_refuted.

(** the type of the counter is chosen by the length of the first array: 2^31 rows in the second are never counted to the end *)
Theorem C101_rows_refuted : exists m a1 a2 xs ys, fair (m_ord m) /\ holds a1 xs /\ holds a2 ys /\ contiguous a1 /\ contiguous a2 /\
  a_dtype a1 = 5 /\ a_dtype a2 = 5 /\ PyIsMemberCategorical m a1 a2 2 0 = UB.
Proof. exact categorical_rows. Qed.
Print Assumptions C101_rows_refuted.
