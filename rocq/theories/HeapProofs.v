(** Heaps of elements: proofs. *)
From Verif Require Import Base HeapModel.

(** ** Swapping two entries *)
Definition at_ (h : list nat) (i : nat) : nat := nth i h 0.
Definition lswap (i j : nat) (h : list nat) : list nat := upd (upd h i (at_ h j)) j (at_ h i).
Lemma at_nth h i : i < length h -> nth_error h i = Some (at_ h i).
Proof. intros H. now apply nth_error_nth'. Qed.
Lemma nth_at h i e : nth_error h i = Some e -> at_ h i = e.
Proof. intros H. unfold at_. now apply nth_error_nth. Qed.
Lemma lswap_length i j h : length (lswap i j h) = length h.
Proof. unfold lswap. now rewrite !length_upd. Qed.
Lemma nth_lswap i j h x : i < length h -> j < length h ->
  nth_error (lswap i j h) x = if x =? j then Some (at_ h i) else if x =? i then Some (at_ h j) else nth_error h x.
Proof.
  intros Hi Hj. unfold lswap. rewrite !nth_error_upd, length_upd. destruct (Nat.ltb_spec j (length h)), (Nat.ltb_spec i (length h)); try lia.
  rewrite !andb_true_r. rewrite (Nat.eqb_sym x j), (Nat.eqb_sym x i). destruct (j =? x), (i =? x); reflexivity.
Qed.
Lemma at_lswap i j h x : i < length h -> j < length h ->
  at_ (lswap i j h) x = if x =? j then at_ h i else if x =? i then at_ h j else at_ h x.
Proof.
  intros Hi Hj. destruct (Nat.lt_ge_cases x (length h)) as [L | L].
  - apply nth_at. rewrite nth_lswap by auto. destruct (x =? j); auto. destruct (x =? i); auto. now apply at_nth.
  - unfold at_ at 1. rewrite nth_overflow by (rewrite lswap_length; lia).
    destruct (Nat.eqb_spec x j); [lia |]. destruct (Nat.eqb_spec x i); [lia |]. unfold at_. now rewrite nth_overflow by lia.
Qed.
Lemma lswap_perm i j h : i < length h -> j < length h -> Permutation h (lswap i j h).
Proof.
  intros Hi Hj. apply (proj2 (Permutation_nth h (lswap i j h) 0)). cbv zeta. split; [apply lswap_length |].
  exists (fun x => if x =? j then i else if x =? i then j else x). split; [| split].
  - intros x Hx. destruct (x =? j); auto. destruct (x =? i); auto.
  - intros x y Hx Hy. destruct (Nat.eqb_spec x j), (Nat.eqb_spec y j), (Nat.eqb_spec x i), (Nat.eqb_spec y i); lia.
  - intros x Hx. fold (at_ (lswap i j h) x). rewrite at_lswap by auto. destruct (x =? j); auto. destruct (x =? i); auto.
Qed.

(** ** Heap order *)
Lemma parent_lt i : 0 < i -> parent i < i. Proof. unfold parent. lia. Qed.
Lemma child_cases c i : 0 < c -> parent c = i -> c = left_child i \/ c = right_child i.
Proof. unfold parent, left_child, right_child. lia. Qed.
Lemma parent_left i : parent (left_child i) = i. Proof. unfold parent, left_child. lia. Qed.
Lemma parent_right i : parent (right_child i) = i. Proof. unfold parent, right_child. lia. Qed.
Section Order.
  Context (lt : nat -> nat -> bool).
  Hypothesis irr : forall a, lt a a = false.
  Hypothesis tr : forall a b c, lt a b = true -> lt b c = true -> lt a c = true.
  Hypothesis ntr : forall a b c, lt a b = false -> lt b c = false -> lt a c = false.
  Lemma asym a b : lt a b = true -> lt b a = false.
  Proof. intros H. destruct (lt b a) eqn:E; auto. pose proof (irr a). pose proof (tr a b a H E). congruence. Qed.

  (* entry j is not above its parent *)
  Definition ord (h : list nat) (j : nat) : Prop := lt (at_ h (parent j)) (at_ h j) = false.
  Definition heap_ok (h : list nat) : Prop := forall j, 0 < j < length h -> ord h j.
  (* the children of i are not above its parent *)
  Definition grand (h : list nat) (i : nat) : Prop := forall c, 0 < i -> c < length h -> 0 < c -> parent c = i -> lt (at_ h (parent i)) (at_ h c) = false.
  Definition up_pre (h : list nat) (i : nat) : Prop := (forall j, 0 < j < length h -> j <> i -> ord h j) /\ grand h i.
  Definition down_pre (h : list nat) (i : nat) : Prop := (forall j, 0 < j < length h -> j <> i -> parent j <> i -> ord h j) /\ grand h i.

  Lemma up_done h i : up_pre h i -> i = 0 \/ ord h i -> heap_ok h.
  Proof. intros [A _] D j Hj. destruct (Nat.eq_dec j i) as [-> |]; [destruct D; [lia | auto] | auto]. Qed.
  Lemma up_step h i : up_pre h i -> 0 < i < length h -> lt (at_ h (parent i)) (at_ h i) = true -> up_pre (lswap (parent i) i h) (parent i).
  Proof.
    intros [A B] Hi C. pose proof (parent_lt i ltac:(lia)) as P. set (p := parent i) in *.
    assert (G : forall x, at_ (lswap p i h) x = if x =? i then at_ h p else if x =? p then at_ h i else at_ h x) by (intros; apply at_lswap; lia).
    split.
    - intros j Hj N. rewrite lswap_length in Hj. unfold ord. rewrite !G. pose proof (parent_lt j ltac:(lia)) as PJ.
      destruct (Nat.eqb_spec j i) as [-> |].
      + fold p. destruct (Nat.eqb_spec p i); [lia |]. rewrite Nat.eqb_refl. now apply asym.
      + destruct (Nat.eqb_spec j p); [lia |]. destruct (Nat.eqb_spec (parent j) i) as [E |].
        * exact (B j ltac:(lia) ltac:(lia) ltac:(lia) E).
        * destruct (Nat.eqb_spec (parent j) p) as [E |].
          -- apply ntr with (b := at_ h p); [now apply asym |]. pose proof (A j Hj ltac:(lia)) as O. unfold ord in O. now rewrite E in O.
          -- apply A; lia.
    - intros c Hp Hc Hc0 E. rewrite lswap_length in Hc. rewrite !G. pose proof (parent_lt p Hp) as PP.
      destruct (Nat.eqb_spec (parent p) i); [lia |]. destruct (Nat.eqb_spec (parent p) p); [lia |].
      assert (O : lt (at_ h (parent p)) (at_ h p) = false) by (apply A; lia).
      destruct (Nat.eqb_spec c i); auto. destruct (Nat.eqb_spec c p) as [-> |].
      + rewrite E in PP. lia.
      + apply ntr with (b := at_ h p); auto. pose proof (A c ltac:(lia) ltac:(lia)) as O2. unfold ord in O2. now rewrite E in O2.
  Qed.

  (* the larger child of i *)
  Definition big (h : list nat) (i k : nat) : Prop :=
    parent k = i /\ 0 < k < length h /\ forall c, 0 < c < length h -> parent c = i -> lt (at_ h k) (at_ h c) = false.
  Lemma down_stop h i : down_pre h i -> (forall c, 0 < c < length h -> parent c = i -> ord h c) -> up_pre h i.
  Proof. intros [A B] C. split; auto. intros j Hj N. destruct (Nat.eq_dec (parent j) i); auto. Qed.
  Lemma big_stop h i k : big h i k -> lt (at_ h k) (at_ h i) = true -> forall c, 0 < c < length h -> parent c = i -> ord h c.
  Proof. intros (P & L & M) C c Hc E. unfold ord. rewrite E. apply ntr with (b := at_ h k); auto. now apply asym. Qed.
  (* after a swap downwards everything is in order but the children of k *)
  Lemma down_step h i k : down_pre h i -> big h i k -> lt (at_ h k) (at_ h i) = false ->
    down_pre (lswap i k h) k /\ ord (lswap i k h) k /\ (0 < i -> ord (lswap i k h) i).
  Proof.
    intros [A B] (P & L & M) C. pose proof (parent_lt k ltac:(lia)) as PL. rewrite P in PL.
    assert (G : forall x, at_ (lswap i k h) x = if x =? k then at_ h i else if x =? i then at_ h k else at_ h x) by (intros; apply at_lswap; lia).
    assert (Gi : at_ (lswap i k h) i = at_ h k) by (rewrite G; destruct (Nat.eqb_spec i k); [lia |]; now rewrite Nat.eqb_refl).
    assert (Gk : at_ (lswap i k h) k = at_ h i) by (rewrite G; now rewrite Nat.eqb_refl).
    assert (Oi : 0 < i -> ord (lswap i k h) i).
    { intros I0. unfold ord. rewrite Gi, G. pose proof (parent_lt i I0). destruct (Nat.eqb_spec (parent i) k); [lia |]. destruct (Nat.eqb_spec (parent i) i); [lia |]. apply B; auto; lia. }
    split; [split |]; [| | split; auto].
    - intros j Hj N1 N2. rewrite lswap_length in Hj. pose proof (parent_lt j ltac:(lia)) as PJ. destruct (Nat.eq_dec j i) as [-> | NI]; [apply Oi; lia |].
      unfold ord. destruct (Nat.eq_dec (parent j) i) as [E | NE].
      + rewrite E, Gi, G. destruct (Nat.eqb_spec j k); [lia |]. destruct (Nat.eqb_spec j i); [lia |]. apply M; auto.
      + rewrite !G. destruct (Nat.eqb_spec j k); [lia |]. destruct (Nat.eqb_spec j i); [lia |]. destruct (Nat.eqb_spec (parent j) k); [lia |]. destruct (Nat.eqb_spec (parent j) i); [lia |]. now apply A.
    - intros c _ Hc Hc0 E. rewrite lswap_length in Hc. rewrite P, Gi, G. pose proof (parent_lt c Hc0). destruct (Nat.eqb_spec c k); [lia |]. destruct (Nat.eqb_spec c i); [lia |].
      pose proof (A c ltac:(lia) ltac:(lia) ltac:(lia)) as O. unfold ord in O. now rewrite E in O.
    - unfold ord. now rewrite P, Gi, Gk.
  Qed.
  Lemma up_pre_heap h i : heap_ok h -> up_pre h i.
  Proof.
    intros H. split; [intros; apply H; lia |]. intros c I0 Hc Hc0 E. apply ntr with (b := at_ h i).
    - apply H. pose proof (parent_lt c Hc0). lia.
    - pose proof (H c ltac:(lia)) as O. unfold ord in O. now rewrite E in O.
  Qed.
  (* a heap whose entry i was changed *)
  Lemma head_max h : heap_ok h -> forall j, j < length h -> lt (at_ h 0) (at_ h j) = false.
  Proof.
    intros H j. induction j as [j IH] using lt_wf_ind. intros L. destruct j as [| j]; [apply irr |].
    pose proof (parent_lt (S j) ltac:(lia)). apply ntr with (b := at_ h (parent (S j))); [apply IH; lia | apply H; lia].
  Qed.
End Order.
