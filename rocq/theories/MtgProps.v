(** Property C89: IsMember by concurrent hash maps. *)
From Verif Require Import Base Mem MemLemmas HashModel HashSpec HashMember MtgModel MtgSpec MtgProofs Mtg2Proofs Mtg3Proofs Mtg4Proofs.
Local Open Scope Z_scope.

(** [mix]: the order in which the hash maps take the messages; [ord]: the order in which the rows are written. An index that
    is missing is the least value of the index type. *)

(** Missing: no items ([C89_empty_refuted]), 999999 and more items ([C89_full_refuted], [C89_same_refuted], [C89_order_refuted]). *)
Theorem C89_ints_partial :
  forall ord mix a b, fair ord -> mixes mix -> 1 <= Z.of_nat (length b) <= grainsize - 2 ->
  exists res, IsMember_ints grainsize num_per_bucket ord mix a b = Ret res /\
    member_spec eq (- 2 ^ (index_bits (Z.of_nat (length b)) - 1)) b a res.
Proof.
  intros ord mix a b F M N. destruct (member_num_ok Z.eqb (fun x => Some x) grainsize num_per_bucket ord mix) with (a := a) (b := b) as (res & E & S); try assumption.
  - intros x y H. rewrite Z.eqb_sym. exact H.
  - intros x y z H1 H2. apply Z.eqb_eq in H1, H2. subst. apply Z.eqb_refl.
  - discriminate.
  - exists res. split; [exact E|]. clear E. induction S as [|x r a0 rs H S IH]; constructor; [clear S IH|exact IH]. destruct H as [(j & y & J1 & J2 & J3 & ->)|[H ->]].
    + left. exists j, y. apply Z.eqb_eq in J2. split; [assumption|]. split; [assumption|]. split; [|reflexivity]. intros j' y' J' E' C. apply (J3 j' y' J' E'). now apply Z.eqb_eq.
    + right. split; [|reflexivity]. intros y I C. apply (H y I). now apply Z.eqb_eq.
Qed.
Print Assumptions C89_ints_partial.

(** NaN is equal to nothing, zeros of both signs are equal. *)
Theorem C89_floats_partial :
  forall w e size_t ord mix a b, fair ord -> mixes mix -> 1 <= Z.of_nat (length b) <= grainsize - 2 ->
  exists res, IsMember_floats grainsize num_per_bucket ord w e size_t mix a b = Ret res /\
    member_spec (fun x y => feq_bits w e x y = true) (- 2 ^ (index_bits (Z.of_nat (length b)) - 1)) b a res.
Proof.
  intros w e size_t ord mix a b F M N. apply member_num_ok; try assumption.
  - intros x y H. rewrite feq_sym. exact H.
  - intros x y z. apply feq_trans.
  - discriminate.
Qed.
Print Assumptions C89_floats_partial.

(** More items: some row with an equal item; the first one if no two items are equal. Missing: a part of the haystack
    without a value for some hash map ([C89_same_refuted]), duplicates ([C89_order_refuted]). *)
Theorem C89_many_partial :
  forall ord mix a b q r, fair ord -> mixes mix ->
  Z.of_nat (length b) = grainsize * q + r -> 1 <= r <= grainsize - 2 -> 0 <= q -> Z.of_nat (length b) < 2 ^ 63 ->
  (forall i c, (i < S (Z.to_nat q))%nat -> (c < S (Z.to_nat q))%nat -> has_class grainsize b (S (Z.to_nat q)) i c) ->
  exists res, IsMember_ints grainsize num_per_bucket ord mix a b = Ret res /\
    occurs_spec eq (- 2 ^ (index_bits (Z.of_nat (length b)) - 1)) b a res /\
    (distinct eq b -> member_spec eq (- 2 ^ (index_bits (Z.of_nat (length b)) - 1)) b a res).
Proof.
  intros ord mix a b q r F M N R Q N63 A. destruct (many_ok grainsize num_per_bucket ord b q r F N R Q N63 A mix a M) as (res & E & O).
  exists res. split; [exact E|]. split; [exact O|]. intros D.
  destruct (many_unique grainsize num_per_bucket ord b q r F N R Q N63 A mix a M D) as (res' & E' & S).
  rewrite E in E'. injection E' as <-. exact S.
Qed.
Print Assumptions C89_many_partial.

(** Strings of bytes. Missing: more than 127 bytes in fewer than 100 items and the like ([C89_strings_refuted]), unicode ([C89_unicode_refuted]). *)
Theorem C89_strings_partial :
  forall ord hash mix (n1 n2 c1 c2 : nat) a b, fair ord -> mixes mix -> (0 < n2)%nat -> (0 < c1)%nat -> (0 < c2)%nat ->
  length a = (n1 * c1)%nat -> length b = (n2 * c2)%nat ->
  padded c1 (item_list (Z.of_nat n1) (Z.of_nat c1) a) -> padded c2 (item_list (Z.of_nat n2) (Z.of_nat c2) b) ->
  Z.of_nat (n2 * c2) <= grainsize - 2 -> Z.of_nat (n2 * c2) < 2 ^ (index_bits (Z.of_nat n2) - 1) ->
  exists res, IsMember_strings grainsize num_per_bucket ord 1 hash mix (Z.of_nat n1) (Z.of_nat n2) (Z.of_nat c1) (Z.of_nat c2) a b = Ret res /\
    member_spec same_text (- 2 ^ (index_bits (Z.of_nat n2) - 1)) (item_list (Z.of_nat n2) (Z.of_nat c2) b) (item_list (Z.of_nat n1) (Z.of_nat c1) a) res.
Proof.
  intros ord hash mix n1 n2 c1 c2 a b F M N2 C1 C2 LA LB PA PB HG HW. apply strings_ok; try assumption. discriminate.
Qed.
Print Assumptions C89_strings_partial.
(** Strings that have the size of an integer, which may be unicode *)
Theorem C89_short_strings_partial :
  forall ord hash mix csz (n1 n2 c : nat) a b, fair ord -> mixes mix ->
  csz * Z.of_nat c = 1 \/ csz * Z.of_nat c = 2 \/ csz * Z.of_nat c = 4 \/ csz * Z.of_nat c = 8 ->
  (0 < n2)%nat -> Z.of_nat n2 <= grainsize - 2 ->
  padded c (item_list (Z.of_nat n1) (Z.of_nat c) a) -> padded c (item_list (Z.of_nat n2) (Z.of_nat c) b) ->
  exists res, IsMember_strings grainsize num_per_bucket ord csz hash mix (Z.of_nat n1) (Z.of_nat n2) (Z.of_nat c) (Z.of_nat c) a b = Ret res /\
    member_spec same_text (- 2 ^ (index_bits (Z.of_nat n2) - 1)) (item_list (Z.of_nat n2) (Z.of_nat c) b) (item_list (Z.of_nat n1) (Z.of_nat c) a) res.
Proof.
  intros ord hash mix csz n1 n2 c a b F M H N2 HG PA PB. apply strings_alias; try assumption. discriminate.
Qed.
Print Assumptions C89_short_strings_partial.

(** A needle and no items: the remainder by 0. *)
Theorem C89_empty_refuted : exists a b, forall ord mix, IsMember_ints grainsize num_per_bucket ord mix a b = UB.
Proof. exists [5], []. intros ord mix. apply none_in_empty. reflexivity. Qed.
Print Assumptions C89_empty_refuted.

(** 999999 or a million items: the last range is empty, and the first item of an empty vector is read. *)
Theorem C89_full_refuted :
  forall b a ord mix, Z.of_nat (length b) = grainsize - 1 \/ Z.of_nat (length b) = grainsize -> IsMember_ints grainsize num_per_bucket ord mix a b = UB.
Proof. intros b a ord mix H. apply member_num_full; [exact H|]. split; discriminate. Qed.
Print Assumptions C89_full_refuted.
Example C89_full_refuted_example : exists b : list Z, Z.of_nat (length b) = grainsize.
Proof. exists (repeat 0 (Z.to_nat grainsize)). rewrite repeat_length, Z2Nat.id; [reflexivity|discriminate]. Qed.

(** A million and one equal items: no item for the second hash map. *)
Theorem C89_same_refuted :
  exists b, Z.of_nat (length b) = grainsize + 1 /\ (forall x, In x b -> x = 0) /\ IsMember_ints grainsize num_per_bucket in_order (fun _ ps => concat ps) [0] b = UB.
Proof. destruct (all_same_big in_order (fun _ ps => concat ps) [0]) as (b & A & B & C). exists b. auto. Qed.
Print Assumptions C89_same_refuted.

(** The row that is found depends on the order of the messages. *)
Theorem C89_order_refuted :
  exists a b mix1 mix2 p q, mixes mix1 /\ mixes mix2 /\ p <> q /\
    IsMember_ints grainsize num_per_bucket in_order mix1 a b = Ret [(true, p)] /\ IsMember_ints grainsize num_per_bucket in_order mix2 a b = Ret [(true, q)].
Proof.
  exists [0], (twice (Z.to_nat grainsize)), calls_in_order, last_call_first, 0, grainsize.
  destruct (order_matters (Z.to_nat grainsize) num_per_bucket in_order) as [A B]; [intros T l; apply Permutation_refl|rewrite Z2Nat.id by discriminate; split; [discriminate|reflexivity]|].
  rewrite Z2Nat.id in A, B by discriminate. split; [exact calls_in_order_mixes|]. split; [exact last_call_first_mixes|]. split; [discriminate|]. split; [exact A|exact B].
Qed.
Print Assumptions C89_order_refuted.

(** 16 strings of 16 characters: their 256 bytes are 0 in an index of 8 bits, and nothing is found. 50 strings of 10: reads before the array. *)
Theorem C89_strings_refuted :
  exists a b b', IsMember_strings grainsize num_per_bucket in_order 1 (fun _ => 0) (fun _ ps => concat ps) 1 16 16 16 a b = Ret [(false, -128)] /\
    In (item 16 a 0) (item_list 16 16 b) /\
    IsMember_strings grainsize num_per_bucket in_order 1 (fun _ => 0) (fun _ ps => concat ps) 1 50 16 10 a b' = UB.
Proof.
  exists (repeat 65 16), (repeat 65 256), (repeat 65 500). split; [vm_compute; reflexivity|]. split; [|vm_compute; reflexivity]. left. vm_compute. reflexivity.
Qed.
Print Assumptions C89_strings_refuted.

(** Unicode strings of 3 characters: 12 characters are read of each. *)
Theorem C89_unicode_refuted :
  exists a b, length b = 3%nat /\ IsMember_strings grainsize num_per_bucket in_order 4 (fun _ => 0) (fun _ ps => concat ps) 1 1 3 3 a b = UB.
Proof. exists [65; 66; 67], [65; 66; 67]. split; vm_compute; reflexivity. Qed.
Print Assumptions C89_unicode_refuted.

(** ** Examples *)
Example C89_ints_example : IsMember_ints grainsize num_per_bucket in_order (fun _ ps => concat ps) [7; 5; 9] [5; 7; 5; 7] = Ret [(true, 1); (true, 0); (false, -128)].
Proof. vm_compute. reflexivity. Qed.
Example C89_mixes_example : mixes (fun (_ : nat) (ps : list (list (list (Z * Z)))) => concat ps) /\ fair in_order /\ 1 <= Z.of_nat (length [5; 7; 5; 7]) <= grainsize - 2.
Proof. split; [exact calls_in_order_mixes|]. split; [intros T l; apply Permutation_refl|split; discriminate]. Qed.
Example C89_floats_example : (* NaN, -0.0 in 0.0, NaN *)
  IsMember_floats grainsize num_per_bucket in_order 32 8 (fun _ => None) (fun _ ps => concat ps) [0x7fc00000; 0x80000000] [0; 0x7fc00000] = Ret [(false, -128); (true, 0)].
Proof. vm_compute. reflexivity. Qed.
(** the haystack of [C89_order_refuted] has a value of each class in both of its parts *)
Example C89_many_example : exists b, Z.of_nat (length b) = grainsize * 1 + (grainsize - 2) /\
  forall i c, (i < 2)%nat -> (c < 2)%nat -> has_class grainsize b 2 i c.
Proof.
  exists (twice (Z.to_nat grainsize)). assert (G : Z.of_nat (Z.to_nat grainsize) = grainsize) by (apply Z2Nat.id; discriminate).
  assert (H : 4 <= Z.of_nat (Z.to_nat grainsize) < 2 ^ 61) by (rewrite G; split; [discriminate|reflexivity]).
  pose proof (twice_len (Z.to_nat grainsize) H) as L. pose proof (twice_all (Z.to_nat grainsize) H) as A. rewrite G in L, A. now split.
Qed.
Example C89_strings_example : (* "ab", "c" in "c", "ab", "b" *)
  IsMember_strings grainsize num_per_bucket in_order 1 (fun _ => 0) (fun _ ps => concat ps) 2 3 3 2 [97; 98; 0; 99; 0; 0] [99; 0; 97; 98; 98; 0] = Ret [(true, 1); (true, 0)] /\
  padded 3 (item_list 2 3 [97; 98; 0; 99; 0; 0]) /\ padded 2 (item_list 3 2 [99; 0; 97; 98; 98; 0]).
Proof.
  split; [vm_compute; reflexivity|]. split; intros s I; vm_compute in I.
  - destruct I as [<-|[<-|[]]]; (split; [reflexivity|]); intros i E j c L F; destruct j as [|[|[|[|]]]]; destruct i as [|[|[|[|]]]]; cbn in E, F; try discriminate; try lia; congruence.
  - destruct I as [<-|[<-|[<-|[]]]]; (split; [reflexivity|]); intros i E j c L F; destruct j as [|[|[|[|]]]]; destruct i as [|[|[|[|]]]]; cbn in E, F; try discriminate; try lia; congruence.
Qed.
Example C89_short_strings_example :
  IsMember_strings grainsize num_per_bucket in_order 4 (fun _ => 0) (fun _ ps => concat ps) 1 2 2 2 [97; 98] [98; 0; 97; 98] = Ret [(true, 1)].
Proof. vm_compute. reflexivity. Qed.
