(** Properties C17, C18, C20 and C52-C56: hashing. *)
From Verif Require Import Num Base Mem HashModel HashSpec HashProofs HashMember HashGroup HashAlign HashLinks HashLinks2 HashFixup.
Local Open Scope Z_scope.

(** ** C17.  [okt T Q e]: [e] has no undefined behaviour, throws only if [T], and else returns a result with [Q].
    Hint 0: the table is sized by the number of rows. [ord]: the order in which the threads write their rows. *)

(** every hash function [H], every table size above the number of distinct values *)
Theorem C17_any_hash :
  forall K (keq : K -> K -> bool) (H : Z -> K -> Z) ord thr size bad (a b : list K),
  (forall x y, keq x y = true <-> x = y) -> fair ord -> 0 <= size -> (forall x, In x (a ++ b) -> 0 <= H size x < size) -> fewer_than size b ->
  exists r, is_member_mk keq H ord thr size bad a b = Ret r /\ member_spec eq bad b a r.
Proof. intros K keq H ord thr size bad a b Hk Ho Hs HH Hf. eapply okt_ret; [apply mk_member; auto|tauto]. Qed.
Print Assumptions C17_any_hash.

Theorem C17_int :
  forall crc isz ord thr mode bad (a b : list Z), fair ord -> Z.of_nat (length b) < 68719476731 ->
  exists r, IsMember_int crc isz ord thr mode 0 bad a b = Ret r /\ member_spec eq bad b a r.
Proof.
  intros crc isz ord thr mode bad a b Ho Hl. eapply okt_ret; [apply IsMember_int_ok; auto|]. intros C. apply C, fewer_default; auto.
Qed.
Print Assumptions C17_int.

Theorem C17_small :
  forall isz ord thr bad (a b : list Z), fair ord -> isz = 1 \/ isz = 2 -> bits (8 * isz) (a ++ b) ->
  exists r, IsMember_small isz ord thr bad a b = Ret r /\ member_spec eq bad b a r.
Proof. exact IsMember_small_ok. Qed.
Print Assumptions C17_small.

Theorem C17_rows :
  forall crc ord thr bad (a b : list (list Z)), fair ord -> Z.of_nat (length b) < 68719476731 ->
  exists r, MultiKeyIsMember crc ord thr 0 bad a b = Ret r /\ member_spec eq bad b a r.
Proof.
  intros crc ord thr bad a b Ho Hl. eapply okt_ret; [apply MultiKeyIsMember_ok; auto|]. intros C. apply C, fewer_default; auto.
Qed.
Print Assumptions C17_rows.

(** Missing: a hint below the number of distinct values may make it throw ([C17_hint_refuted]). *)
Theorem C17_int_hint_partial :
  forall crc isz ord thr mode hint bad (a b : list Z), fair ord -> entries hint (Z.of_nat (length b)) < 68719476731 ->
  okt (~ fewer_than (AllocMemory mode false (entries hint (Z.of_nat (length b)))) b) (member_spec eq bad b a)
      (IsMember_int crc isz ord thr mode hint bad a b).
Proof. exact IsMember_int_ok. Qed.
Print Assumptions C17_int_hint_partial.

(** Missing: zeros of both signs ([C17_negative_zero_refuted]). NaN is equal to nothing. *)
Theorem C17_f32_partial :
  forall ord thr mode bad (a b : list Z), fair ord -> Z.of_nat (length b) < 68719476731 -> one_zero 32 8 (a ++ b) ->
  exists r, IsMember_f32 ord thr mode 0 bad a b = Ret r /\ member_spec (fun x y => feq_bits 32 8 x y = true) bad b a r.
Proof.
  intros ord thr mode bad a b Ho Hl Hz. eapply okt_ret; [apply IsMember_f32_ok; auto|]. intros C. apply C, fewer_default; auto.
Qed.
Print Assumptions C17_f32_partial.

Theorem C17_f64_partial :
  forall ord thr mode bad (a b : list Z), fair ord -> Z.of_nat (length b) < 68719476731 -> one_zero 64 11 (a ++ b) ->
  exists r, IsMember_f64 ord thr mode 0 bad a b = Ret r /\ member_spec (fun x y => feq_bits 64 11 x y = true) bad b a r.
Proof.
  intros ord thr mode bad a b Ho Hl Hz. eapply okt_ret; [apply IsMember_f64_ok; auto|]. intros C. apply C, fewer_default; auto.
Qed.
Print Assumptions C17_f64_partial.

(** Missing: strings with characters after a NUL ([C17_embedded_nul_refuted]). *)
Theorem C17_string_partial :
  forall hash mode bad w1 w2 (a b : list (list Z)), Z.of_nat (length b) < 68719476731 -> padded w1 a -> padded w2 b ->
  exists r, IsMemberString hash mode 0 bad w1 w2 a b = Ret r /\ member_spec same_text bad b a r.
Proof.
  intros hash mode bad w1 w2 a b Hl Ha Hb. eapply okt_ret; [apply IsMemberString_ok; auto|]. intros C. apply C, fewer_default; auto.
Qed.
Print Assumptions C17_string_partial.

(** every key collides in a table of 3 positions *)
Example C17_any_hash_example :
  is_member_mk Z.eqb (fun _ _ => 2) in_order true 3 (-1) [7; 5; 9] [5; 9; 5] = Ret [(false, -1); (true, 0); (true, 1)].
Proof. reflexivity. Qed.
Example C17_int_example :
  IsMember_int (fun x => x * 40503) 4 in_order true PRIME 0 (-128) [7; 60; 9; 7] [9; 60; 7; 113; 7] = Ret [(true, 2); (true, 1); (true, 0); (true, 2)].
Proof. vm_compute. reflexivity. Qed.
Example C17_f32_example : (* 1.0, NaN, 2.0 in 2.0, NaN *)
  IsMember_f32 in_order true PRIME 0 (-128) [0x3f800000; 0x7fc00000; 0x40000000] [0x40000000; 0x7fc00000] = Ret [(false, -128); (false, -128); (true, 0)].
Proof. vm_compute. reflexivity. Qed.
Example C17_f32_example_guard : one_zero 32 8 ([0x3f800000; 0x7fc00000; 0x40000000] ++ [0x40000000; 0x7fc00000]).
Proof. intros x y Hx Hy. cbn in Hx, Hy. intuition (subst; try reflexivity; exfalso; match goal with H : feq_bits _ _ _ _ = true |- _ => vm_compute in H; discriminate end). Qed.
Example C17_string_example : (* "ab", "" in "", "ab" of width 3 *)
  IsMemberString (fun s => hd 0 s) PRIME 0 (-128) 2 3 [[97; 98]; [0; 0]] [[0; 0; 0]; [97; 98; 0]] = Ret [(true, 1); (true, 0)].
Proof. vm_compute. reflexivity. Qed.
Example C17_string_example_guard : padded 3 [[0; 0; 0]; [97; 98; 0]].
Proof.
  intros s Hs. cbn in Hs. split; [intuition (subst; auto)|]. intros i Hi j c L Hj.
  destruct Hs as [<- |[<- |[]]]; do 4 (destruct i as [|i]; cbn in Hi; try discriminate; try (destruct j as [|[|[|[|j]]]]; cbn in Hj; try discriminate; try lia; congruence)).
Qed.

(** 0.0 is looked for as -0.0, which is equal, and not found *)
Theorem C17_negative_zero_refuted :
  exists a b, IsMember_f32 in_order false MASK 0 (-128) a b = Ret [(false, -128)] /\ exists x y, a = [x] /\ b = [y] /\ feq_bits 32 8 x y = true.
Proof. exists [0x80000000], [0]. split; [vm_compute; reflexivity|]. do 2 eexists. split; [reflexivity|]. split; [reflexivity|]. vm_compute. reflexivity. Qed.
Print Assumptions C17_negative_zero_refuted.

(** "a" is found in an array that only has "a\0b" *)
Theorem C17_embedded_nul_refuted :
  exists a b, IsMemberString (fun _ => 0) MASK 0 (-128) 1 3 a b = Ret [(true, 0)] /\ exists x y, a = [x] /\ b = [y] /\ ~ same_text x y.
Proof.
  exists [[97]], [[97; 0; 98]]. split; [vm_compute; reflexivity|]. do 2 eexists. split; [reflexivity|]. split; [reflexivity|].
  intros (k & [E|E]); [|discriminate]. destruct k as [|[|[|k]]]; cbn in E; discriminate.
Qed.
Print Assumptions C17_embedded_nul_refuted.

(** a hint of 1 gives a table of 53 positions, and 54 distinct values do not fit *)
Theorem C17_hint_refuted :
  exists hint a b, hint <> 0 /\ IsMember_int (fun x => x) 4 in_order false PRIME hint (-128) a b = Throw.
Proof. exists 1, [0], (zseq 54). split; [lia|]. vm_compute. reflexivity. Qed.
Print Assumptions C17_hint_refuted.

(** ** C18.  [grouped rows idx first]: see HashSpec; [C18_iff]: same number iff same key. Float keys are compared by bits. *)
Theorem C18_iff :
  forall K (rows : list (K * bool)) idx first i j x y, grouped rows idx first -> kept rows i x -> kept rows j y ->
  (nth_error idx i = nth_error idx j <-> x = y).
Proof. exact @grouped_iff. Qed.
Print Assumptions C18_iff.

(** Missing: 1- and 2-byte keys in PRIME mode ([C18_prime_refuted]), hints that are too small ([C18_hint_refuted]),
    equal floats with different bits ([C18_negative_zero_refuted]). *)
Theorem C18_groupby_partial :
  forall crc kt mode (keys : list Z) filt, Z.of_nat (length keys) < 68719476731 -> bits (width kt) keys -> (kt = Item1 \/ kt = Item2 -> mode = MASK) ->
  exists idx first, GroupByInternal crc kt mode 0 keys filt = Ret (idx, first) /\ grouped (with_filter keys filt) idx first.
Proof.
  intros crc kt mode keys filt Hl Hb Hm. destruct (okt_ret _ _ _ (GroupByInternal_ok crc kt mode 0 keys filt Hl Hb Hm)) as ((idx & first) & E & G); eauto.
  intros C. apply C, fewer_default; auto.
Qed.
Print Assumptions C18_groupby_partial.

Theorem C18_groupby_hint_partial :
  forall crc kt mode hint (keys : list Z) filt, entries hint (Z.of_nat (length keys)) < 68719476731 -> bits (width kt) keys ->
  (kt = Item1 \/ kt = Item2 -> mode = MASK) ->
  okt (~ fewer_than (AllocMemory mode false (entries hint (Z.of_nat (length keys)))) keys)
      (fun r => grouped (with_filter keys filt) (fst r) (snd r)) (GroupByInternal crc kt mode hint keys filt).
Proof. exact GroupByInternal_ok. Qed.
Print Assumptions C18_groupby_hint_partial.

Theorem C18_groupby_rows :
  forall crc mode (keys : list (list Z)) filt, Z.of_nat (length keys) < 68719476731 ->
  exists idx first, GroupByInternal_rows crc mode 0 keys filt = Ret (idx, first) /\ grouped (with_filter keys filt) idx first.
Proof.
  intros crc mode keys filt Hl. destruct (okt_ret _ _ _ (GroupByInternal_rows_ok crc mode 0 keys filt Hl)) as ((idx & first) & E & G); eauto.
  intros C. apply C, fewer_default; auto.
Qed.
Print Assumptions C18_groupby_rows.

(** with partitions: each on its own, by several threads *)
Theorem C18_partitioned_partial :
  forall crc kt mode ord cut (keys : list Z) filt, fair ord -> Z.of_nat (length keys) < 68719476731 -> bits (width kt) keys ->
  (kt = Item1 \/ kt = Item2 -> mode = MASK) -> (forall f, filt = Some f -> length f = length keys) -> cuts 0 cut (Z.of_nat (length keys)) ->
  exists r, GroupByPartitioned (GroupByInternal crc kt mode 0) ord cut keys filt = Ret r /\
    grouped_parts cut (with_filter keys filt) (fst (fst r)) (snd (fst r)) (snd r).
Proof. intros. eapply okt_ret; [apply GroupByPartitioned_ok; auto; lia|]. intros (C & _). now elim C. Qed.
Print Assumptions C18_partitioned_partial.

Theorem C18_partitioned_rows :
  forall crc mode ord cut (keys : list (list Z)) filt, fair ord -> Z.of_nat (length keys) < 68719476731 ->
  (forall f, filt = Some f -> length f = length keys) -> cuts 0 cut (Z.of_nat (length keys)) ->
  exists r, GroupByPartitioned (GroupByInternal_rows crc mode 0) ord cut keys filt = Ret r /\
    grouped_parts cut (with_filter keys filt) (fst (fst r)) (snd (fst r)) (snd r).
Proof. intros. eapply okt_ret; [apply GroupByPartitioned_rows_ok; auto; lia|]. intros (C & _). now elim C. Qed.
Print Assumptions C18_partitioned_rows.

Example C18_example :
  GroupByInternal (fun x => x) Item4 PRIME 0 [7; 3; 60; 3; 7; 60; 9] (Some [true; true; false; true; true; true; true]) = Ret ([1; 2; 0; 2; 1; 3; 4], [0; 1; 5; 6]).
Proof. vm_compute. reflexivity. Qed.
Example C18_partitioned_example :
  GroupByPartitioned (GroupByInternal (fun x => x) Item4 PRIME 0) in_order [3; 3; 5] [7; 3; 7; 3; 4] None = Ret ([1; 2; 1; 1; 2], [0; 1; 0; 1], [2; 2; 4]).
Proof. vm_compute. reflexivity. Qed.
Example C18_partitioned_example_guard : cuts 0 [3; 3; 5] 5.
Proof. cbn. lia. Qed.

(** a table of 193 positions indexed with [item & 192]: keys 0 and 1 are one group *)
Theorem C18_prime_refuted :
  exists keys idx first, bits 8 keys /\ GroupByInternal (fun x => x) Item1 PRIME 0 keys None = Ret (idx, first) /\ ~ grouped (with_filter keys None) idx first.
Proof.
  exists [0; 1], [1; 1], [0]. split; [intros x Hx; cbn in Hx; intuition (subst; lia)|]. split; [vm_compute; reflexivity|].
  intros G. pose proof (proj1 (grouped_iff _ _ _ 0%nat 1%nat 0 1 G eq_refl eq_refl) eq_refl). discriminate.
Qed.
Print Assumptions C18_prime_refuted.

Theorem C18_hint_refuted :
  exists hint keys, hint <> 0 /\ GroupByInternal (fun x => x) Item8 PRIME hint keys None = Throw.
Proof. exists 1, (zseq 54). split; [lia|]. vm_compute. reflexivity. Qed.
Print Assumptions C18_hint_refuted.

(** 0.0 and -0.0 are equal and get different groups *)
Theorem C18_negative_zero_refuted :
  exists x y, feq_bits 64 11 x y = true /\ exists first, GroupByInternal (fun x => x) Float64 MASK 0 [x; y] None = Ret ([1; 2], first).
Proof. exists 0, (2 ^ 63). split; [vm_compute; reflexivity|]. eexists. vm_compute. reflexivity. Qed.
Print Assumptions C18_negative_zero_refuted.

(** ** C20.  Any type of time with a strict weak order on its valid values; [forward], [exact]: the two options. *)
Theorem C20_asof :
  forall K V (keq : K -> K -> bool) (H : Z -> K -> Z) (lt eq : V -> V -> bool) valid forward exact bad d key1 key2 val1 val2,
  (forall x y, keq x y = true <-> x = y) -> time_order lt eq valid -> (forall size x, 0 < size -> 0 <= H size x < size) ->
  length val1 = length key1 -> length val2 = length key2 -> Z.of_nat (length key2) < 68719476731 ->
  time_sorted (fun x y => lt x y = true) (fun x => valid x = true) val1 -> time_sorted (fun x y => lt x y = true) (fun x => valid x = true) val2 ->
  exists r, MultiKeyAlign keq H lt eq valid forward exact bad d key1 key2 val1 val2 = Ret r /\
    asof_spec (fun x y => lt x y = true) (fun x => valid x = true) exact key1 key2 val1 val2 forward bad r.
Proof. intros. eapply okt_ret; [apply align_ok; auto|tauto]. Qed.
Print Assumptions C20_asof.

(** integer times with an invalid value, and float times with NaN *)
Theorem C20_asof_int :
  forall crc nan forward exact bad d (key1 key2 : list (list Z)) (val1 val2 : list Z),
  length val1 = length key1 -> length val2 = length key2 -> Z.of_nat (length key2) < 68719476731 ->
  time_sorted Z.lt (fun x => x <> nan) val1 -> time_sorted Z.lt (fun x => x <> nan) val2 ->
  exists r, MultiKeyAlign bytes_eqb (row_hash crc) Z.ltb Z.eqb (fun x => negb (x =? nan)) forward exact bad d key1 key2 val1 val2 = Ret r /\
    asof_spec (fun x y => (x <? y) = true) (fun x => negb (x =? nan) = true) exact key1 key2 val1 val2 forward bad r.
Proof.
  intros crc nan forward exact bad d key1 key2 val1 val2 L1 L2 Hn S1 S2. apply C20_asof; auto using bytes_eqb_eq, int_time.
  - intros. now apply mask_range.
  - intros i j x y Lij Ei Ej Vx Vy C. apply (S1 i j x y); auto; lia.
  - intros i j x y Lij Ei Ej Vx Vy C. apply (S2 i j x y); auto; lia.
Qed.
Print Assumptions C20_asof_int.

Theorem C20_asof_float :
  forall crc forward exact bad d (key1 key2 : list (list Z)) (val1 val2 : list fl),
  length val1 = length key1 -> length val2 = length key2 -> Z.of_nat (length key2) < 68719476731 ->
  time_sorted (fun x y => flt x y = true) (fun x => negb (is_nan x) = true) val1 -> time_sorted (fun x y => flt x y = true) (fun x => negb (is_nan x) = true) val2 ->
  exists r, MultiKeyAlign bytes_eqb (row_hash crc) flt feq (fun x => negb (is_nan x)) forward exact bad d key1 key2 val1 val2 = Ret r /\
    asof_spec (fun x y => flt x y = true) (fun x => negb (is_nan x) = true) exact key1 key2 val1 val2 forward bad r.
Proof. intros. apply C20_asof; auto using bytes_eqb_eq, fl_time. intros. now apply mask_range. Qed.
Print Assumptions C20_asof_float.

Example C20_example_backward :
  MultiKeyAlign Z.eqb (fun _ _ => 3) flt feq (fun x => negb (is_nan x)) false true (-1) 99
    [1; 2; 1; 3; 1] [1; 2; 1; 1] [Fin 1; Fin 2; NaN; Fin 5; Fin 6] [Fin 1; Fin 2; Fin 6; Fin 7] = Ret [0; 1; -1; -1; 2].
Proof. vm_compute. reflexivity. Qed.
Example C20_example_forward :
  MultiKeyAlign Z.eqb (fun _ _ => 3) flt feq (fun x => negb (is_nan x)) true false (-1) 99
    [1; 2; 1; 3; 1] [1; 2; 1; 1] [Fin 1; Fin 2; NaN; Fin 5; Fin 6] [Fin 1; Fin 2; Fin 6; Fin 7] = Ret [2; -1; -1; -1; 3].
Proof. vm_compute. reflexivity. Qed.
Example C20_example_guard :
  time_sorted (fun x y => flt x y = true) (fun x => negb (is_nan x) = true) [Fin 1; Fin 2; NaN; Fin 5; Fin 6].
Proof.
  intros i j x y L Ei Ej Vx Vy C.
  do 5 (destruct i as [|i]; cbn in Ei; [inversion Ei; subst x; destruct j as [|[|[|[|[|j]]]]]; cbn in Ej; try lia; try (destruct j; discriminate); inversion Ej; subst y; cbn in *; try discriminate|]).
  destruct i; discriminate.
Qed.

(** MergeBinnedAndSorted (FindLastMatchCategorical) stores row j of the second table under the key of its row i, pKey2[i].
    Missing: second tables with several keys, or shorter than the first ([C20_categorical_refuted], [C20_categorical_read_refuted]). *)
Theorem C20_categorical_partial :
  forall V (lt eq : V -> V -> bool) bad k0 key1 key2 val1 val2 uniques, time_order lt eq (fun _ => true) -> (length key1 <= length key2)%nat ->
  (forall k, In k key2 -> k = k0) -> (forall k, In k (k0 :: key1) -> 0 <= k < Z.of_nat uniques) -> length val1 = length key1 -> length val2 = length key2 ->
  time_sorted (fun x y => lt x y = true) (fun _ => True) val1 -> time_sorted (fun x y => lt x y = true) (fun _ => True) val2 ->
  exists r, FindLastMatchCategorical lt bad key1 key2 val1 val2 uniques = Ret r /\
    asof_spec (fun x y => lt x y = true) (fun _ => True) true key1 key2 val1 val2 false bad r.
Proof. exact @cat_ok. Qed.
Print Assumptions C20_categorical_partial.

Example C20_categorical_example :
  FindLastMatchCategorical Z.ltb (-1) [0; 1; 1] [1; 1; 1] [2; 3; 8] [1; 3; 9] 2 = Ret [-1; 1; 1].
Proof. vm_compute. reflexivity. Qed.

(** The second table is shorter than the first: pKey2[1] is read behind its end. *)
Theorem C20_categorical_read_refuted :
  exists key1 key2 val1 val2, length val1 = length key1 /\ length val2 = length key2 /\ (forall k, In k (key1 ++ key2) -> k = 0) /\
    FindLastMatchCategorical Z.ltb (-1) key1 key2 val1 val2 1 = UB.
Proof.
  exists [0; 0], [0], [1; 3], [2]. do 2 (split; [reflexivity|]). split; [|vm_compute; reflexivity]. cbn. intros k [<- | [<- | [<- | []]]]; auto.
Qed.
Print Assumptions C20_categorical_read_refuted.

(** Row 1, which has key 1, is matched with a row of key 0. *)
Theorem C20_categorical_refuted :
  exists key1 key2 val1 val2 r, FindLastMatchCategorical Z.ltb (-1) key1 key2 val1 val2 2 = Ret r /\
    time_sorted Z.lt (fun _ => True) val1 /\ time_sorted Z.lt (fun _ => True) val2 /\ length val1 = length key1 /\ length val2 = length key2 /\
    ~ asof_spec Z.lt (fun _ => True) true key1 key2 val1 val2 false (-1) r.
Proof.
  exists [0; 1], [1; 0], [2; 3], [1; 2]. eexists. split; [vm_compute; reflexivity|].
  assert (S : forall a b, a < b -> time_sorted Z.lt (fun _ => True) [a; b]).
  { intros a b Lab i j x y L Ei Ej _ _. destruct i as [|[|[|i]]], j as [|[|[|j]]]; cbn in *; try discriminate; try lia; inversion Ei; inversion Ej; lia. }
  split; [apply S; lia|]. split; [apply S; lia|]. do 2 (split; [reflexivity|]). intros (_ & C).
  destruct (C 1%nat _ eq_refl) as [(j & (k & v1 & v2 & A & B & _) & E & _)|(_ & E)]; [|discriminate].
  assert (j = 1%nat) by lia. subst j. cbn in A, B. congruence.
Qed.
Print Assumptions C20_categorical_refuted.

(** ** C52.  Membership of categoricals. *)

Theorem C52_categories_int :
  forall crc isz mode (a b : list Z), Z.of_nat (length b) < 68719476731 ->
  exists r, IsMemberCategorical_int crc isz mode 0 a b = Ret r /\ member_cat_spec eq b a r.
Proof.
  intros crc isz mode a b Hl. eapply okt_ret; [apply IsMemberCategorical_int_ok; auto|]. intros C. apply C, fewer_default; auto.
Qed.
Print Assumptions C52_categories_int.

(** Missing: 1- and 2-byte items above the table size ([C52_small_refuted]). *)
Theorem C52_categories_small_partial :
  forall mode (a b : list Z), Z.of_nat (length b) < 68719476731 ->
  (forall x, In x (a ++ b) -> 0 <= x < AllocMemory mode false (Z.of_nat (length b))) ->
  exists r, IsMemberCategorical_small mode 0 a b = Ret r /\ member_cat_spec eq b a r.
Proof.
  intros mode a b Hl Hx. eapply okt_ret; [apply (IsMemberCategorical_small_ok mode 0 a b Hl); exact Hx|]. intros C. apply C, fewer_default; auto.
Qed.
Print Assumptions C52_categories_small_partial.

(** Missing: what happens to categories outside the arrays ([C52_fixup_refuted]) and to two equal category numbers. *)
Theorem C52_fixup_partial :
  forall inv base1 base2 bins1 bins2 uniq nu2, inv < 0 -> (forall u, In u uniq -> u = inv \/ 0 <= u < Z.of_nat nu2) ->
  (forall i j u, nth_error uniq i = Some u -> nth_error uniq j = Some u -> u <> inv -> i = j) ->
  (forall v, In v bins1 -> v < base1 + Z.of_nat (length uniq)) -> (forall v, In v bins2 -> v < base2 + Z.of_nat nu2) ->
  Z.of_nat (length bins2) < 2 ^ 31 - 1 ->
  exists res, IsMemberCategoricalFixup inv base1 base2 bins1 bins2 uniq nu2 = Ret res /\ Forall2 (fixup_row inv base1 base2 bins2 uniq) bins1 res.
Proof. exact fixup_ok. Qed.
Print Assumptions C52_fixup_partial.

Example C52_categories_example : IsMemberCategorical_int (fun x => x) 4 PRIME 0 [7; 60; 9] [9; 7; 7] = Ret ([2; 0; 1], true).
Proof. vm_compute. reflexivity. Qed.
Example C52_categories_small_example : IsMemberCategorical_small PRIME 0 [7; 52; 9] [9; 7; 7] = Ret ([2; 0; 1], true).
Proof. vm_compute. reflexivity. Qed.
Example C52_fixup_example : IsMemberCategoricalFixup (-128) 1 1 [1; 0; 2; 3; 1] [2; 3; 2; 0] [2; -128; 1] 3 = Ret [(true, 1); (false, -128); (false, -128); (true, 0); (true, 1)].
Proof. vm_compute. reflexivity. Qed.

(** the table has 53 positions, item 200 is its own position *)
Theorem C52_small_refuted : exists a b, bits 8 (a ++ b) /\ IsMemberCategorical_small PRIME 0 a b = UB.
Proof. exists [200], [1]. split; [intros x Hx; cbn in Hx; intuition (subst; lia)|]. vm_compute. reflexivity. Qed.
Print Assumptions C52_small_refuted.

(** a category number past the categories is read from outside the array *)
Theorem C52_fixup_refuted : exists bins1 bins2 uniq, IsMemberCategoricalFixup (-128) 1 1 bins1 bins2 uniq 2 = UB.
Proof. exists [1], [7], [0]. vm_compute. reflexivity. Qed.
Print Assumptions C52_fixup_refuted.

(** ** C53.  Sizes and links of groups, for every hash function and every table with room. *)
Section C53.
  Context (K : Type) (keq : K -> K -> bool) (H : Z -> K -> Z) (size : Z) (rows : list (K * bool)).

  Theorem C53_super :
    (forall x y, keq x y = true <-> x = y) -> 0 <= size -> (forall i x, kept rows i x -> 0 <= H size x < size) ->
    fewer_than size (map fst (filter snd rows)) ->
    exists idx next first cnt, GroupBySuper keq H size rows = Ret (idx, next, first, cnt) /\
      grouped rows idx first /\ column idx (next_row idx) next /\ sizes idx first cnt.
  Proof.
    intros Hk Hs HH Hf. destruct (okt_ret _ _ _ (super_ok keq Hk H rows size Hs HH)) as ((((idx & next) & first) & cnt) & E & G); [intros C; exact (C Hf)|].
    exists idx, next, first, cnt. auto.
  Qed.

  Theorem C53_unique :
    (forall x y, keq x y = true <-> x = y) -> 0 <= size -> (forall i x, kept rows i x -> 0 <= H size x < size) ->
    fewer_than size (map fst (filter snd rows)) ->
    exists first cnt, Unique keq H size rows = Ret (first, cnt) /\ exists idx, grouped rows idx first /\ sizes idx first cnt.
  Proof.
    intros Hk Hs HH Hf. destruct (okt_ret _ _ _ (uniq_ok keq Hk H rows size Hs HH)) as ((first & cnt) & E & G); [intros C; exact (C Hf)|].
    exists first, cnt. auto.
  Qed.
End C53.
Print Assumptions C53_super.
Print Assumptions C53_unique.

Example C53_example : GroupBySuper Z.eqb (fun _ _ => 1) 4 [(7, true); (3, true); (3, false); (7, true); (9, true); (3, false); (7, true)] =
  Ret ([1; 2; 0; 1; 3; 0; 1], [3; GB_INVALID; 5; 6; GB_INVALID; GB_INVALID; GB_INVALID], [0; 1; 4], [3; 1; 1]).
Proof. vm_compute. reflexivity. Qed.
Example C53_unique_example : Unique Z.eqb (fun _ _ => 1) 4 [(7, true); (3, true); (3, false); (7, true); (9, true)] = Ret ([0; 1; 4], [2; 1; 1]).
Proof. vm_compute. reflexivity. Qed.

(** ** C54.  Calls of MultiKeyRolling on one table, whatever the batches. Missing: keys wider than 16 bytes, for which the
    function returns uninitialised columns. *)
Theorem C54_rolling_partial :
  forall K (keq : K -> K -> bool) (H : Z -> K -> Z) size calls, (forall x y, keq x y = true <-> x = y) -> 0 <= size ->
  (forall x, In x (concat calls) -> 0 <= H size x < size) -> fewer_than size (concat calls) ->
  exists os, RollingCalls keq H size (new_table size, 0) calls = Ret os /\ exists first, rolls (concat calls) os first.
Proof. intros K keq H size calls Hk Hs HH Hf. eapply okt_ret; [apply RollingCalls_ok; auto|]. intros C. exact (C Hf). Qed.
Print Assumptions C54_rolling_partial.

Example C54_example : RollingCalls Z.eqb (fun _ _ => 1) 4 (new_table 4, 0) [[7; 3]; []; [3; 7; 9]; [7]] = Ret [(0, 1); (1, 1); (1, 2); (0, 2); (2, 1); (0, 3)].
Proof. vm_compute. reflexivity. Qed.

(** ** C55.  Missing: the filter, which is ignored ([C55_filter_refuted]). [d]: what the new arrays held. *)
Theorem C55_columns_partial :
  forall K (keq : K -> K -> bool) (H : Z -> K -> Z) d size rows filt, (forall x y, keq x y = true <-> x = y) -> 0 <= size ->
  (forall x, In x rows -> 0 <= H size x < size) -> fewer_than size rows ->
  exists idx run bkt prev next first lst, MultiKeyHash keq H d size rows filt = Ret (idx, run, bkt, prev, next, first, lst) /\
    (exists f, grouped (all_kept rows) idx f) /\ column idx (running idx) run /\ column idx (group_size idx) bkt /\
    column idx (prev_row idx) prev /\ column idx (next_row idx) next /\ column idx (group_first idx) first /\ column idx (group_last idx) lst.
Proof.
  intros K keq H d size rows filt Hk Hs HH Hf.
  destruct (okt_ret _ _ _ (MultiKeyHash_ok keq Hk H d size rows filt Hs HH)) as (((((((idx & run) & bkt) & prev) & next) & first) & lst) & E & G); [intros C; exact (C Hf)|].
  exists idx, run, bkt, prev, next, first, lst. auto.
Qed.
Print Assumptions C55_columns_partial.

Example C55_example : MultiKeyHash Z.eqb (fun _ _ => 1) 77 4 [7; 3; 7; 9; 7] None =
  Ret ([1; 2; 1; 3; 1], [1; 1; 2; 1; 3], [3; 1; 3; 1; 3], [GB_INVALID; GB_INVALID; 0; GB_INVALID; 2],
       [2; GB_INVALID; 4; GB_INVALID; GB_INVALID], [0; 1; 0; 3; 0], [4; 1; 4; 3; 4]).
Proof. vm_compute. reflexivity. Qed.

Theorem C55_filter_refuted :
  exists rows f, exists idx run bkt prev next first lst,
    MultiKeyHash Z.eqb (fun _ _ => 0) 77 4 rows (Some f) = Ret (idx, run, bkt, prev, next, first, lst) /\
    ~ exists fs, grouped (with_filter rows (Some f)) idx fs.
Proof.
  exists [7], [false]. do 7 eexists. split; [vm_compute; reflexivity|]. intros (fs & [_ G _ _ _]). specialize (G 0%nat 7 eq_refl). discriminate.
Qed.
Print Assumptions C55_filter_refuted.

(** ** C56.  Rows made of several columns: same bytes iff same items, column by column. *)
Theorem C56_same_row :
  forall (cols1 cols2 : list (list (list Z))) i1 i2 r1 r2,
  Forall2 (fun c1 c2 => exists w, (forall x, In x c1 -> length x = w) /\ (forall x, In x c2 -> length x = w)) cols1 cols2 ->
  row_of cols1 i1 = Some r1 -> row_of cols2 i2 = Some r2 ->
  (r1 = r2 <-> Forall2 (fun c1 c2 => nth_error c1 i1 = nth_error c2 i2) cols1 cols2).
Proof.
  intros cols1 cols2 i1 i2 r1 r2 W E1 E2. split.
  - intros ->. eapply row_of_inj; eauto.
  - intros F. apply row_of_same in F. congruence.
Qed.
Print Assumptions C56_same_row.

Theorem C56_rotate :
  forall cols n rows i r, RotateArrays cols n = Some rows -> nth_error rows i = Some r -> row_of cols i = Some r.
Proof. exact rotate_row. Qed.
Print Assumptions C56_rotate.

Example C56_example : RotateArrays [[[1]; [2]]; [[3; 4]; [5; 6]]] 2 = Some [[1; 3; 4]; [2; 5; 6]].
Proof. reflexivity. Qed.
