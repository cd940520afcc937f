From Verif Require Import Base Mem MemLemmas OutModel OutSpec.
Local Open Scope Z_scope.

Lemma contig_offset d : forall s idx u, length s = length d -> contig d s u = true -> index_of d idx -> offset s idx = u * Z.of_nat (flat d idx).
Proof.
  induction d as [|n d IH]; intros s idx u L C I; inversion I as [|i n' idx' d' Hi Hr]; subst; destruct s as [|t s]; try discriminate L; [cbn; lia|].
  cbn [contig] in C. apply andb_prop in C as [C1 C2]. cbn [offset flat]. rewrite (IH s idx' (u * Z.of_nat n)) by (first [now injection L|assumption]).
  apply orb_prop in C1 as [C1|C1]; [apply Nat.leb_le in C1; assert (i = 0%nat) as -> by lia; assert (n = 1%nat) as -> by lia; lia|].
  apply Z.eqb_eq in C1 as ->. lia.
Qed.
Lemma flat_lt d : forall idx, index_of d idx -> (flat d idx < fold_right Nat.mul 1 d)%nat.
Proof.
  induction d as [|n d IH]; intros idx I; inversion I as [|i n' idx' d' Hi Hr]; subst; cbn; [lia|]. specialize (IH idx' Hr). nia.
Qed.
Lemma offset_app s1 : forall s2 i1 i2, length s1 = length i1 -> offset (s1 ++ s2) (i1 ++ i2) = offset s1 i1 + offset s2 i2.
Proof. induction s1 as [|t s1 IH]; intros s2 [|i i1] i2 L; try discriminate L; cbn; [reflexivity|]. rewrite IH by now injection L. lia. Qed.
Lemma offset_rev s : forall idx, length s = length idx -> offset (rev s) (rev idx) = offset s idx.
Proof. induction s as [|t s IH]; intros [|i idx] L; try discriminate L; cbn; [reflexivity|]. injection L as L. rewrite offset_app by now rewrite !rev_length. rewrite IH by assumption. cbn. lia. Qed.
Lemma index_rev d idx : index_of d idx -> index_of (rev d) (rev idx).
Proof. unfold index_of. induction 1; cbn; [constructor|]. apply Forall2_app; [assumption|]. repeat constructor; assumption. Qed.
Lemma index_len d idx : index_of d idx -> length idx = length d.
Proof. induction 1; cbn; congruence. Qed.
Lemma prod_app l l' : (fold_right Nat.mul 1 (l ++ l') = fold_right Nat.mul 1 l * fold_right Nat.mul 1 l')%nat.
Proof. induction l as [|x l IH]; cbn; [lia|]. rewrite IH. lia. Qed.
Lemma prod_rev l : (fold_right Nat.mul 1 (rev l) = fold_right Nat.mul 1 l)%nat.
Proof. induction l as [|x l IH]; [reflexivity|]. cbn [rev]. rewrite prod_app, IH. cbn. lia. Qed.
Lemma position_lt o d idx : index_of d idx -> (position o d idx < fold_right Nat.mul 1 d)%nat.
Proof. intros I. destruct o; cbn [position]; [now apply flat_lt|]. rewrite <- (prod_rev d). now apply flat_lt, index_rev. Qed.
Lemma index_pos a idx : index_of (dims a) idx -> (0 < len a)%nat.
Proof. intros I. apply flat_lt in I. unfold len. lia. Qed.

Definition ordered (o : bool) (a : nd) : bool := if o then f_contig a else c_contig a.
Lemma ordered_at m o a idx : well_formed a -> ordered o a = true -> index_of (dims a) idx ->
  at_index m a idx = m (nbase a + nsize a * Z.of_nat (position o (dims a) idx)).
Proof.
  intros W O I. unfold at_index. f_equal. f_equal. pose proof (index_pos a idx I) as P. pose proof (index_len _ _ I) as L. unfold well_formed in W.
  destruct o; cbn [ordered position] in *; unfold f_contig, c_contig in O; (destruct (len a =? 0)%nat eqn:Z0; [apply Nat.eqb_eq in Z0; lia|cbn [orb] in O]).
  - now apply contig_offset.
  - rewrite <- offset_rev by congruence. apply contig_offset; [now rewrite !rev_length|assumption|now apply index_rev].
Qed.
Lemma position_short o d idx : (length d <= 1)%nat -> length idx = length d -> position o d idx = flat d idx.
Proof. intros L E. destruct o; [reflexivity|]. destruct d as [|x [|y d]]; [|destruct idx as [|i [|j idx]]; try discriminate E; reflexivity|cbn in L; lia]. destruct idx; [reflexivity|discriminate E]. Qed.
Lemma ones d i : fold_right Nat.mul 1%nat d = 1%nat -> index_of d i -> forall s, offset s i = 0.
Proof.
  intros P I. revert P. induction I as [|j n idx d Hj Hr IH]; intros P s; [now destruct s|]. cbn in P. apply Nat.eq_mul_1 in P as [-> P'].
  destruct s as [|t s]; [reflexivity|]. cbn. rewrite (IH P'). assert (j = 0%nat) as -> by lia. lia.
Qed.
(* a single item: both orders *)
Lemma ones_contig d : fold_right Nat.mul 1%nat d = 1%nat -> forall s u, contig d s u = true.
Proof. induction d as [|n d IH]; intros P s u; [reflexivity|]. cbn in P. apply Nat.eq_mul_1 in P as [-> P']. destruct s; [reflexivity|]. cbn. now apply IH. Qed.
Lemma one_ordered o a : len a = 1%nat -> ordered o a = true.
Proof. intros L. destruct o; cbn; unfold f_contig, c_contig; rewrite L; cbn; apply ones_contig; [exact L|]. now rewrite prod_rev. Qed.


(* the order of the result *)
Lemma order_pick a b (nd1 : bool) o : ordered o a = true -> ordered o b = true ->
  exists o', ordered o' a = true /\ ordered o' b = true /\ (nd1 = true -> nd1 && f_contig a && f_contig b = o').
Proof.
  intros A B. destruct (f_contig a && f_contig b) eqn:F.
  - apply andb_prop in F as [F1 F2]. exists true. cbn. rewrite F1, F2. repeat split; auto. intros ->. reflexivity.
  - destruct o; cbn in A, B; [rewrite A, B in F; discriminate|]. exists false. cbn. rewrite A, B. repeat split; auto. intros ->. cbn. exact F.
Qed.

Lemma two_arrays_ok f m a b r o : well_formed a -> well_formed b -> dims a = dims b -> ordered o a = true -> ordered o b = true -> (0 < len a)%nat ->
  TwoArrays f m a b = Some r ->
  rdims r = dims a /\ forall idx, index_of (dims a) idx -> result_at r idx = Some (f (at_index m a idx) (at_index m b idx)).
Proof.
  intros Wa Wb D Oa Ob P T. unfold TwoArrays in T. assert (LL : len b = len a) by (unfold len; now rewrite D).
  destruct (negb _); [discriminate|]. cbv zeta in T. rewrite LL, Nat.eqb_refl in T. cbn [orb] in T. rewrite Nat.leb_refl, Nat.max_id in T.
  replace (len a =? 0)%nat with false in T by (symmetry; apply Nat.eqb_neq; lia). injection T as <-. cbn [rdims]. split; [reflexivity|]. intros idx I.
  unfold result_at. cbn [ritems rfortran rdims].
  destruct (order_pick a b (1 <? length (dims a))%nat o Oa Ob) as (o' & Oa' & Ob' & Q).
  assert (PQ : position ((1 <? length (dims a))%nat && f_contig a && f_contig b) (dims a) idx = position o' (dims a) idx).
  { destruct (1 <? length (dims a))%nat eqn:N; [now rewrite (Q eq_refl)|]. apply Nat.ltb_ge in N. pose proof (index_len _ _ I). rewrite !position_short by assumption. reflexivity. }
  rewrite PQ. pose proof (position_lt o' _ _ I) as Lt. fold (len a) in Lt.
  rewrite nth_error_map. rewrite (nth_error_nth' _ 0%nat) by now rewrite seq_length. rewrite seq_nth by assumption. cbn [option_map Nat.add]. do 2 f_equal.
  - rewrite (ordered_at m o' a idx Wa Oa' I). destruct (len a =? 1)%nat eqn:O1; [|reflexivity]. apply Nat.eqb_eq in O1. do 3 f_equal. lia.
  - rewrite (ordered_at m o' b idx Wb Ob' ltac:(now rewrite <- D)), <- D. destruct (len a =? 1)%nat eqn:O1; [|reflexivity]. apply Nat.eqb_eq in O1. do 3 f_equal. lia.
Qed.
(* one operand with a single item *)
Lemma one_item_right f m a b r o : well_formed a -> ordered o a = true -> len b = 1%nat -> (1 < len a)%nat -> TwoArrays f m a b = Some r ->
  rdims r = dims a /\ forall idx j, index_of (dims a) idx -> index_of (dims b) j -> result_at r idx = Some (f (at_index m a idx) (at_index m b j)).
Proof.
  intros Wa Oa Lb P T. unfold TwoArrays in T. destruct (negb _); [discriminate|]. cbv zeta in T. rewrite Lb in T.
  replace (len a =? 1)%nat with false in T by (symmetry; apply Nat.eqb_neq; lia). replace (1 <=? len a)%nat with true in T by (symmetry; apply Nat.leb_le; lia).
  replace (Nat.max (len a) 1) with (len a) in T by lia. replace (len a =? 0)%nat with false in T by (symmetry; apply Nat.eqb_neq; lia).
  cbn [orb andb Nat.eqb] in T. injection T as <-. cbn [rdims]. split; [reflexivity|]. intros idx j I J.
  unfold result_at. cbn [ritems rfortran rdims].
  destruct (order_pick a b (1 <? length (dims a))%nat o Oa (one_ordered o b Lb)) as (o' & Oa' & Ob' & Q).
  assert (PQ : position ((1 <? length (dims a))%nat && f_contig a && f_contig b) (dims a) idx = position o' (dims a) idx).
  { destruct (1 <? length (dims a))%nat eqn:N; [now rewrite (Q eq_refl)|]. apply Nat.ltb_ge in N. pose proof (index_len _ _ I). rewrite !position_short by assumption. reflexivity. }
  rewrite PQ. pose proof (position_lt o' _ _ I) as Lt. fold (len a) in Lt.
  rewrite nth_error_map. rewrite (nth_error_nth' _ 0%nat) by now rewrite seq_length. rewrite seq_nth by assumption. cbn [option_map Nat.add]. do 2 f_equal.
  - now rewrite (ordered_at m o' a idx Wa Oa' I).
  - unfold at_index. rewrite (ones (dims b) j Lb J). f_equal. lia.
Qed.
Lemma one_item_left f m a b r o : well_formed b -> ordered o b = true -> len a = 1%nat -> (1 < len b)%nat -> TwoArrays f m a b = Some r ->
  rdims r = dims b /\ forall idx j, index_of (dims b) idx -> index_of (dims a) j -> result_at r idx = Some (f (at_index m a j) (at_index m b idx)).
Proof.
  intros Wb Ob La P T. unfold TwoArrays in T. destruct (negb _); [discriminate|]. cbv zeta in T. rewrite La in T.
  replace (1 =? len b)%nat with false in T by (symmetry; apply Nat.eqb_neq; lia). replace (len b =? 1)%nat with false in T by (symmetry; apply Nat.eqb_neq; lia).
  replace (len b <=? 1)%nat with false in T by (symmetry; apply Nat.leb_gt; lia). replace (1 <=? len b)%nat with true in T by (symmetry; apply Nat.leb_le; lia).
  replace (Nat.max 1 (len b)) with (len b) in T by lia. replace (len b =? 0)%nat with false in T by (symmetry; apply Nat.eqb_neq; lia).
  cbn [orb andb Nat.eqb] in T. injection T as <-. cbn [rdims]. split; [reflexivity|]. intros idx j I J.
  unfold result_at. cbn [ritems rfortran rdims].
  destruct (order_pick a b (1 <? length (dims b))%nat o (one_ordered o a La) Ob) as (o' & Oa' & Ob' & Q).
  assert (PQ : position ((1 <? length (dims b))%nat && f_contig a && f_contig b) (dims b) idx = position o' (dims b) idx).
  { destruct (1 <? length (dims b))%nat eqn:N; [now rewrite (Q eq_refl)|]. apply Nat.ltb_ge in N. pose proof (index_len _ _ I). rewrite !position_short by assumption. reflexivity. }
  rewrite PQ. pose proof (position_lt o' _ _ I) as Lt. fold (len b) in Lt.
  rewrite nth_error_map. rewrite (nth_error_nth' _ 0%nat) by now rewrite seq_length. rewrite seq_nth by assumption. cbn [option_map Nat.add]. do 2 f_equal.
  - unfold at_index. rewrite (ones (dims a) j La J). f_equal. lia.
  - now rewrite (ordered_at m o' b idx Wb Ob' I).
Qed.

Lemma first_packed a : first_stride a = true <-> packed_first a.
Proof.
  unfold first_stride, packed_first. split.
  - intros H n t d s D S. rewrite D, S in H. apply orb_true_iff in H as [H|H]; [left; now apply Nat.leb_le|right; apply Z.eqb_eq in H; now symmetry].
  - intros H. destruct (dims a) as [|n d]; [reflexivity|]. destruct (strides a) as [|t s]; [reflexivity|].
    apply orb_true_iff. destruct (H n t d s eq_refl eq_refl) as [L| ->]; [left; now apply Nat.leb_le|right; apply Z.eqb_refl].
Qed.
Lemma two_arrays_taken f m a b : TwoArrays f m a b <> None <-> packed_first a /\ packed_first b /\ lengths_go (len a) (len b).
Proof.
  unfold TwoArrays. rewrite <- !first_packed.
  assert (G : (len a =? len b)%nat || (len a =? 1)%nat && (1 <=? len b)%nat || (len b =? 1)%nat && (1 <=? len a)%nat = true <-> lengths_go (len a) (len b)).
  { unfold lengths_go. rewrite !orb_true_iff, !andb_true_iff, !Nat.eqb_eq, !Nat.leb_le. tauto. }
  destruct (first_stride a), (first_stride b); cbn [andb negb]; try (split; [congruence|intros (A & B & _); congruence]).
  rewrite <- G. destruct (_ || _ || _); split; try congruence; auto. intros (_ & _ & H). discriminate.
Qed.
