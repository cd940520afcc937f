(** Heap sort and quick sort. *)
From Verif Require Import Base Mem MemLemmas SortModel SortSpec SortProofs.
Local Open Scope Z_scope.

(** ** Rearrangements of a range *)
Section Re.
  Context {E : Type}.
  (* positions lo..hi are permuted, the others unchanged *)
  Definition rearr (lo hi : Z) (a b : list E) : Prop :=
    length b = length a /\ Permutation a b /\ forall k, (k < lo \/ hi < k) -> zrd b k = zrd a k.

  Lemma rearr_refl lo hi a : rearr lo hi a a.
  Proof. repeat split; auto. Qed.
  Lemma rearr_trans lo hi a b c : rearr lo hi a b -> rearr lo hi b c -> rearr lo hi a c.
  Proof.
    intros (L1 & P1 & F1) (L2 & P2 & F2). split; [congruence|]. split; [eapply perm_trans; eauto|]. intros k Hk. rewrite F2, F1; auto.
  Qed.
  Lemma rearr_mono lo hi lo' hi' a b : lo' <= lo -> hi <= hi' -> rearr lo hi a b -> rearr lo' hi' a b.
  Proof. intros H1 H2 (L & P & F). repeat split; auto. intros k Hk. apply F. lia. Qed.

  Lemma firstn_ext (a b : list E) n : (forall k, (k < n)%nat -> nth_error b k = nth_error a k) -> firstn n b = firstn n a.
  Proof. intros H. apply list_ext. intros i. rewrite !nth_error_firstn. destruct (i <? n)%nat eqn:Hi; auto. apply H. now apply Nat.ltb_lt. Qed.
  Lemma skipn_ext (a b : list E) n : (forall k, (n <= k)%nat -> nth_error b k = nth_error a k) -> skipn n b = skipn n a.
  Proof. intros H. apply list_ext. intros i. rewrite !nth_error_skipn. apply H. lia. Qed.

  Lemma rearr_split lo hi a b : 0 <= lo -> lo <= hi + 1 -> hi < Z.of_nat (length a) -> rearr lo hi a b ->
    exists p m m' q, a = p ++ m ++ q /\ b = p ++ m' ++ q /\ Permutation m m' /\ Z.of_nat (length p) = lo /\ Z.of_nat (length m) = hi - lo + 1.
  Proof.
    intros Hlo Hh Ha (L & P & F). set (n := Z.to_nat lo). set (k := Z.to_nat (hi - lo + 1)).
    exists (firstn n a), (firstn k (skipn n a)), (firstn k (skipn n b)), (skipn (n + k) a).
    assert (A : forall l : list E, l = firstn n l ++ firstn k (skipn n l) ++ skipn (n + k) l).
    { intros l. rewrite <- (firstn_skipn n l) at 1. f_equal. rewrite <- (firstn_skipn k (skipn n l)) at 1. f_equal.
      apply list_ext. intros i. rewrite !nth_error_skipn. f_equal. lia. }
    assert (Fb : firstn n b = firstn n a).
    { apply firstn_ext. intros i Hi. specialize (F (Z.of_nat i)). rewrite !zrd_some, Nat2Z.id in F by lia. apply F. lia. }
    assert (Sb : skipn (n + k) b = skipn (n + k) a).
    { apply skipn_ext. intros i Hi. specialize (F (Z.of_nat i)). rewrite !zrd_some, Nat2Z.id in F by lia. apply F. lia. }
    split; [apply A|]. split; [rewrite <- Fb, <- Sb; apply A|]. split.
    - rewrite (A a), (A b), Fb, Sb in P. apply Permutation_app_inv_l in P. now apply Permutation_app_inv_r in P.
    - rewrite !firstn_length, skipn_length. lia.
  Qed.
  Lemma split_rearr p m m' q lo hi : Permutation m m' -> lo = Z.of_nat (length p) -> hi = lo + Z.of_nat (length m) - 1 ->
    rearr lo hi (p ++ m ++ q) (p ++ m' ++ q).
  Proof.
    intros P -> ->. pose proof (Permutation_length P) as L. split; [rewrite !app_length; lia|]. split.
    - apply Permutation_app_head, Permutation_app_tail, P.
    - intros k Hk. unfold zrd. destruct (Z.leb_spec 0 k); auto. destruct (Z.ltb_spec k (Z.of_nat (length p))).
      + rewrite !nth_error_app1 by lia. auto.
      + rewrite !(app_assoc p). rewrite !nth_error_app2 by (rewrite app_length; lia). rewrite !app_length, L. auto.
  Qed.

  Lemma rearr_in lo hi a b k x : 0 <= lo -> lo <= hi + 1 -> hi < Z.of_nat (length a) -> rearr lo hi a b ->
    lo <= k <= hi -> zrd b k = Some x -> exists k', lo <= k' <= hi /\ zrd a k' = Some x.
  Proof.
    intros Hlo Hh Ha R Hk Hx. destruct (rearr_split lo hi a b) as (p & m & m' & q & -> & -> & P & Lp & Lm); auto.
    rewrite zrd_some in Hx by lia. pose proof (Permutation_length P) as L.
    rewrite nth_error_app2, nth_error_app1 in Hx by lia. apply nth_error_In in Hx. apply (Permutation_in x (Permutation_sym P)) in Hx.
    apply In_nth_error in Hx. destruct Hx as [i Hi]. pose proof (nth_error_Some_lt _ _ _ Hi).
    exists (lo + Z.of_nat i). split; [lia|]. rewrite zrd_some by lia. rewrite nth_error_app2, nth_error_app1 by lia. rewrite <- Hi. f_equal. lia.
  Qed.

  Lemma zrd_upd (a : list E) k i x : 0 <= k < Z.of_nat (length a) -> zrd (upd a (Z.to_nat k) x) i = if i =? k then Some x else zrd a i.
  Proof.
    intros Hk. unfold zrd. destruct (Z.leb_spec 0 i), (Z.eqb_spec i k); subst; auto; try lia.
    - apply nth_error_upd_eq. lia.
    - apply nth_error_upd_neq. lia.
  Qed.
  Lemma zrd_ex (a : list E) k : 0 <= k < Z.of_nat (length a) -> exists x, zrd a k = Some x.
  Proof. intros H. rewrite zrd_some by lia. apply nth_error_lt. lia. Qed.
  Lemma zrd_In (a : list E) k x : zrd a k = Some x -> In x a.
  Proof. intros H. apply zrd_inv in H. eapply nth_error_In. apply H. Qed.

  (* exchange of two positions *)
  Lemma upd2_perm (a : list E) i j x y : nth_error a i = Some x -> nth_error a j = Some y -> Permutation a (upd (upd a i y) j x).
  Proof.
    revert i j. assert (H0 : forall l j (x y : E), nth_error l j = Some y -> Permutation (x :: l) (y :: upd l j x)).
    { induction l as [|z l IH]; intros [|j] u v H; try discriminate; simpl in *.
      - injection H as ->. apply perm_swap.
      - etransitivity; [apply perm_swap|]. etransitivity; [|apply perm_swap]. constructor. auto. }
    induction a as [|z a IH]; intros [|i] [|j] Hi Hj; try discriminate; simpl in *.
    - injection Hi as ->. injection Hj as ->. auto.
    - injection Hi as ->. now apply H0.
    - injection Hj as ->. now apply H0.
    - constructor. auto.
  Qed.
  Lemma swap_ok (a : list E) lo hi i j x y : lo <= i <= hi -> lo <= j <= hi -> zrd a i = Some x -> zrd a j = Some y ->
    exists b, swap a i j = Some b /\ rearr lo hi a b /\ forall k, zrd b k = if k =? j then Some x else if k =? i then Some y else zrd a k.
  Proof.
    intros Hi Hj Ri Rj. unfold swap. rewrite Ri, Rj. apply zrd_inv in Ri, Rj. destruct Ri as [Bi Ri], Rj as [Bj Rj].
    rewrite zwr_some by auto. rewrite zwr_some by (rewrite length_upd; auto).
    eexists. split; [reflexivity|].
    assert (K : forall k, zrd (upd (upd a (Z.to_nat i) y) (Z.to_nat j) x) k = if k =? j then Some x else if k =? i then Some y else zrd a k).
    { intros k. rewrite !zrd_upd by (rewrite ?length_upd; auto). auto. }
    split; auto. split; [now rewrite !length_upd|]. split; [now apply upd2_perm|].
    intros k Hk. rewrite K. destruct (Z.eqb_spec k j), (Z.eqb_spec k i); try lia; auto.
  Qed.
End Re.

(** ** Heap sort *)
Section Heap.
  Context {E : Type} (cmp : E -> E -> option bool) (lt : E -> E -> bool) (sw : strict_weak lt).

  (* a[k] of the code *)
  Definition at1 (a : list E) (k : Z) : option E := zrd a (k - 1).
  (* the parent is not less, for the nodes whose parent is at least [lo] and not [ex] *)
  Definition heap (a : list E) (n lo ex : Z) : Prop :=
    forall k x y, 2 <= k <= n -> lo <= k / 2 -> k / 2 <> ex -> at1 a (k / 2) = Some x -> at1 a k = Some y -> lt x y = false.
  (* the children of [i] are not greater than the parent of [i] *)
  Definition grand (a : list E) (n lo i : Z) : Prop :=
    forall k x y, 2 <= k <= n -> k / 2 = i -> lo <= i / 2 -> at1 a (i / 2) = Some x -> at1 a k = Some y -> lt x y = false.

  Lemma compares_perm a b : Permutation a b -> compares lt cmp a -> compares lt cmp b.
  Proof. clear. intros P C x y Hx Hy. apply C; eapply Permutation_in; [apply Permutation_sym; eauto|auto|apply Permutation_sym; eauto|auto]. Qed.

  (* [b]: the array with tmp in the hole *)
  Lemma sift_ok fuel : forall a n i j tmp b lo,
    1 <= lo -> lo <= i -> j = 2 * i -> n <= Z.of_nat (length a) -> i <= n -> (Z.to_nat (n - j + 1) <= fuel)%nat ->
    b = upd a (Z.to_nat (i - 1)) tmp -> compares lt cmp b ->
    heap b n lo i -> grand b n lo i ->
    exists r, sift cmp fuel a 0 n i j tmp = Some r /\ rearr 0 (n - 1) b r /\ heap r n lo 0.
  Proof.
    induction fuel as [|f IH]; intros a n i j tmp b lo Hlo Hi Hj Hn Hin Hf Hb Hc Hh Hg.
    - assert (n < j) by lia. unfold sift. replace (j <=? n) with false by (symmetry; apply Z.leb_gt; lia).
      rewrite zwr_some by lia. exists b. replace (0 + i - 1) with (i - 1) by lia. rewrite Hb. split; auto. split; [apply rearr_refl|].
      rewrite <- Hb. intros k x y Hk Hk2 _ Hx Hy. apply (Hh k x y); auto. Z.div_mod_to_equations; lia.
    - cbn [sift]. destruct (Z.leb_spec j n) as [Hjn|Hjn].
      2:{ rewrite zwr_some by lia. exists b. replace (0 + i - 1) with (i - 1) by lia. rewrite Hb. split; auto. split; [apply rearr_refl|].
          rewrite <- Hb. intros k x y Hk Hk2 _ Hx Hy. apply (Hh k x y); auto. Z.div_mod_to_equations; lia. }
      assert (Lb : length b = length a) by (rewrite Hb; apply length_upd).
      assert (Ra : forall k, k <> i -> at1 a k = at1 b k).
      { intros k Hk. unfold at1. rewrite Hb, zrd_upd by lia. destruct (Z.eqb_spec (k - 1) (i - 1)); auto. lia. }
      assert (Bi : at1 b i = Some tmp). { unfold at1. rewrite Hb, zrd_upd by lia. now rewrite Z.eqb_refl. }
      (* the greater child *)
      assert (Hm : exists c x, (c = j \/ c = j + 1) /\ c <= n /\ at1 b c = Some x /\
        (forall k y, 2 <= k <= n -> k / 2 = i -> at1 b k = Some y -> lt x y = false) /\
        (if j <? n then
           match zrd a (0 + j - 1) with Some u => match zrd a (0 + j) with Some v => match cmp u v with Some b0 => Some (if b0 then j + 1 else j) | None => None end | None => None end | None => None end
         else Some j) = Some c).
      { destruct (zrd_ex b (j - 1)) as [u Hu]; [lia|]. fold (at1 b j) in Hu.
        destruct (Z.ltb_spec j n).
        - destruct (zrd_ex b j) as [v Hv]; [lia|].
          assert (Hv' : at1 b (j + 1) = Some v) by (unfold at1; now replace (j + 1 - 1) with j by lia).
          replace (0 + j - 1) with (j - 1) by lia. fold (at1 a j). rewrite (Ra j), Hu by lia.
          replace (0 + j) with (j + 1 - 1) by lia. fold (at1 a (j + 1)). rewrite (Ra (j + 1)), Hv' by lia.
          rewrite Hc by (eapply zrd_In; eauto). destruct (lt u v) eqn:L.
          + exists (j + 1), v. repeat split; auto; try lia. intros k y Hk Hk2 Hy.
            assert (k = j \/ k = j + 1) as [-> | ->] by (Z.div_mod_to_equations; lia).
            * rewrite Hu in Hy. injection Hy as <-. now apply lt_asym.
            * rewrite Hv' in Hy. injection Hy as <-. now apply lt_irr.
          + exists j, u. repeat split; auto; try lia. intros k y Hk Hk2 Hy.
            assert (k = j \/ k = j + 1) as [-> | ->] by (Z.div_mod_to_equations; lia).
            * rewrite Hu in Hy. injection Hy as <-. now apply lt_irr.
            * rewrite Hv' in Hy. injection Hy as <-. auto.
        - exists j, u. repeat split; auto; try lia. intros k y Hk Hk2 Hy.
          assert (k = j) as -> by (Z.div_mod_to_equations; lia). rewrite Hu in Hy. injection Hy as <-. now apply lt_irr. }
      destruct Hm as (c & x & Hcj & Hcn & Hx & Hmax & ->).
      replace (0 + c - 1) with (c - 1) by lia. fold (at1 a c). rewrite (Ra c), Hx by lia.
      rewrite Hc by (eapply zrd_In; eauto). replace (0 + i - 1) with (i - 1) by lia.
      assert (Hci : c / 2 = i) by (destruct Hcj as [-> | ->]; Z.div_mod_to_equations; lia).
      destruct (lt tmp x) eqn:L.
      + rewrite zwr_some by lia. set (a' := upd a (Z.to_nat (i - 1)) x).
        set (b' := upd a' (Z.to_nat (c - 1)) tmp).
        assert (Hb' : b' = upd (upd b (Z.to_nat (i - 1)) x) (Z.to_nat (c - 1)) tmp).
        { unfold b', a'. rewrite Hb, upd_upd. auto. }
        assert (La' : length a' = length a) by apply length_upd.
        assert (K : forall k, at1 b' k = if k =? c then Some tmp else if k =? i then Some x else at1 b k).
        { intros k. unfold at1. rewrite Hb', !zrd_upd by (rewrite ?length_upd; lia).
          destruct (Z.eqb_spec (k - 1) (c - 1)), (Z.eqb_spec k c), (Z.eqb_spec (k - 1) (i - 1)), (Z.eqb_spec k i); auto; lia. }
        assert (R0 : rearr 0 (n - 1) b b').
        { split; [rewrite Hb', !length_upd; auto|]. split.
          - rewrite Hb'. apply upd2_perm; unfold at1 in *; [apply zrd_inv in Bi; apply Bi|apply zrd_inv in Hx; apply Hx].
          - intros k Hk. specialize (K (k + 1)). unfold at1 in K. replace (k + 1 - 1) with k in K by lia. rewrite K.
            destruct (Z.eqb_spec (k + 1) c), (Z.eqb_spec (k + 1) i); auto; lia. }
        destruct (IH a' n c (c + c) tmp b' lo) as (r & E1 & R1 & H1); auto; try lia.
        * eapply compares_perm; [apply R0|auto].
        * intros k u v Hk Hk2 Hne Hu Hv. rewrite K in Hu, Hv.
          destruct (Z.eqb_spec (k / 2) c); [lia|]. destruct (Z.eqb_spec k c) as [->|Hkc].
          -- rewrite Hci, Z.eqb_refl in Hu. injection Hu as <-. injection Hv as <-. now apply lt_asym.
          -- destruct (Z.eqb_spec (k / 2) i) as [Hki|Hki].
             ++ injection Hu as <-. destruct (Z.eqb_spec k i); [Z.div_mod_to_equations; lia|]. apply (Hmax k); auto.
             ++ destruct (Z.eqb_spec k i) as [->|].
                ** injection Hv as <-. apply (Hg c u x); auto; lia.
                ** apply (Hh k); auto.
        * intros k u v Hk Hk2 Hl Hu Hv. rewrite Hci in Hu. rewrite K in Hu, Hv. rewrite Z.eqb_refl in Hu.
          destruct (Z.eqb_spec i c); [Z.div_mod_to_equations; lia|]. injection Hu as <-.
          destruct (Z.eqb_spec k c); [Z.div_mod_to_equations; lia|]. destruct (Z.eqb_spec k i); [Z.div_mod_to_equations; lia|].
          apply (Hh k x v); auto; try lia. rewrite Hk2. auto.
        * exists r. split; auto. split; auto. eapply rearr_trans; eauto.
      + rewrite zwr_some by lia. exists b. rewrite Hb. split; auto. split; [apply rearr_refl|]. rewrite <- Hb.
        intros k u v Hk Hk2 _ Hu Hv. destruct (Z.eq_dec (k / 2) i) as [Hki|Hki].
        * rewrite Hki, Bi in Hu. injection Hu as <-. eapply nlt_tr; [exact sw| |exact L]. eapply Hmax; eauto.
        * apply (Hh k); auto.
  Qed.

  Lemma heap_build_ok l : forall a n, n <= Z.of_nat (length a) -> Z.of_nat l <= n / 2 -> compares lt cmp a -> heap a n (Z.of_nat l + 1) 0 ->
    exists r, heap_build cmp l a 0 n = Some r /\ rearr 0 (n - 1) a r /\ heap r n 1 0.
  Proof.
    induction l as [|l IH]; intros a n Hn Hl Hc Hh.
    - exists a. split; auto. split; [apply rearr_refl|]. auto.
    - cbn [heap_build]. replace (0 + Z.of_nat (S l) - 1) with (Z.of_nat l) by lia.
      assert (B : Z.of_nat (S l) <= n) by (Z.div_mod_to_equations; lia).
      destruct (zrd_ex a (Z.of_nat l)) as [tmp Ht]; [lia|]. rewrite Ht.
      assert (Ub : upd a (Z.to_nat (Z.of_nat (S l) - 1)) tmp = a).
      { apply upd_same. apply zrd_inv in Ht. replace (Z.of_nat (S l) - 1) with (Z.of_nat l) by lia. apply Ht. }
      destruct (sift_ok (Z.to_nat n) a n (Z.of_nat (S l)) (Z.of_nat (S l) * 2) tmp a (Z.of_nat (S l))) as (r & E1 & R1 & H1); auto; try lia.
      + intros k x y Hk Hk2 Hne. apply Hh; auto. lia. Z.div_mod_to_equations; lia.
      + intros k x y Hk Hk2 Hne. Z.div_mod_to_equations; lia.
      + rewrite E1. destruct (IH r n) as (r2 & E2 & R2 & H2); auto.
        * destruct R1 as (-> & _). auto.
        * lia.
        * eapply compares_perm; [apply R1|auto].
        * replace (Z.of_nat l + 1) with (Z.of_nat (S l)) by lia. auto.
        * exists r2. split; auto. split; auto. eapply rearr_trans; eauto.
  Qed.

  (* the root of a heap is not less than any other element *)
  Lemma heap_root a n x : 1 <= n <= Z.of_nat (length a) -> heap a n 1 0 -> at1 a 1 = Some x ->
    forall m k y, (Z.to_nat k <= m)%nat -> 1 <= k <= n -> at1 a k = Some y -> lt x y = false.
  Proof.
    intros Hn Hh Hx. induction m as [|m IH]; intros k y Hm Hk Hy; [lia|].
    destruct (Z.eq_dec k 1) as [->|]. { rewrite Hx in Hy. injection Hy as <-. now apply lt_irr. }
    destruct (zrd_ex a (k / 2 - 1)) as [z Hz]. { Z.div_mod_to_equations; lia. }
    eapply nlt_tr; [exact sw| |].
    - apply (Hh k z y); auto; Z.div_mod_to_equations; lia.
    - apply (IH (k / 2) z); auto; Z.div_mod_to_equations; lia.
  Qed.

  (* the end of the array is sorted and not less than the heap *)
  Definition drained (a : list E) (n : Z) : Prop :=
    forall i j x y, 0 <= i < j -> n <= j -> zrd a i = Some x -> zrd a j = Some y -> lt y x = false.

  Lemma heap_drain_ok k : forall a n, Z.to_nat (n - 1) = k -> n <= Z.of_nat (length a) -> compares lt cmp a -> heap a n 1 0 -> drained a n ->
    exists r, heap_drain cmp k a 0 n = Some r /\ Permutation a r /\ sorted lt r.
  Proof.
    induction k as [|k IH]; intros a n Hk Hn Hc Hh Hd.
    - exists a. split; auto. split; auto. intros i j x y Hij Hi Hj. apply (Hd (Z.of_nat i) (Z.of_nat j)); try lia.
      + rewrite zrd_some, Nat2Z.id by lia. auto.
      + rewrite zrd_some, Nat2Z.id by lia. auto.
    - cbn [heap_drain]. replace (0 + n - 1) with (n - 1) by lia.
      destruct (zrd_ex a (n - 1)) as [tmp Ht]; [lia|]. destruct (zrd_ex a 0) as [x Hx]; [lia|]. rewrite Ht, Hx.
      rewrite zwr_some by lia. set (a' := upd a (Z.to_nat (n - 1)) x). set (b := upd a' (Z.to_nat (1 - 1)) tmp).
      assert (K : forall i, zrd b i = if i =? 0 then Some tmp else if i =? n - 1 then Some x else zrd a i).
      { intros i. unfold b, a'. rewrite !zrd_upd by (rewrite ?length_upd; lia). auto. }
      assert (P : Permutation a b).
      { unfold b, a'. rewrite upd_comm by lia. apply upd2_perm; [apply zrd_inv in Hx; apply Hx|apply zrd_inv in Ht; apply Ht]. }
      assert (Lb : length b = length a) by (unfold b, a'; now rewrite !length_upd).
      destruct (sift_ok (Z.to_nat n) a' (n - 1) 1 2 tmp b 1) as (r & E1 & R1 & H1); auto; try lia.
      + unfold a'. rewrite length_upd. lia.
      + eapply compares_perm; eauto.
      + intros i u v Hi Hi2 Hne Hu Hv. unfold at1 in Hu, Hv. rewrite K in Hu, Hv.
        destruct (Z.eqb_spec (i / 2 - 1) 0); [Z.div_mod_to_equations; lia|]. destruct (Z.eqb_spec (i / 2 - 1) (n - 1)); [Z.div_mod_to_equations; lia|].
        destruct (Z.eqb_spec (i - 1) 0); [lia|]. destruct (Z.eqb_spec (i - 1) (n - 1)); [lia|].
        apply (Hh i u v); auto; Z.div_mod_to_equations; lia.
      + intros i u v Hi Hi2 Hl. Z.div_mod_to_equations; lia.
      + rewrite E1. pose proof R1 as (Lr & Pr & Fr). destruct (IH r (n - 1)) as (r2 & E2 & P2 & S2); auto; try lia.
        * eapply compares_perm; [|exact Hc]. eapply perm_trans; eauto.
        * intros i j u v Hij Hj Hu Hv. rewrite (Fr j) in Hv by lia. rewrite K in Hv. destruct (Z.eqb_spec j 0); [lia|].
          (* u comes from somewhere before *)
          assert (Hu' : exists i', 0 <= i' /\ (i' < n \/ i' = i) /\ zrd a i' = Some u).
          { destruct (Z.ltb_spec i (n - 1)).
            - destruct (rearr_in 0 (n - 1 - 1) b r i u) as (i' & Hi' & Hu'); auto; try lia.
              rewrite K in Hu'. destruct (Z.eqb_spec i' 0); [exists (n - 1); split; [lia|split; [lia|congruence]]|].
              destruct (Z.eqb_spec i' (n - 1)); [lia|]. exists i'. split; [lia|]. split; [lia|auto].
            - rewrite (Fr i) in Hu by lia. rewrite K in Hu. destruct (Z.eqb_spec i 0); [lia|]. destruct (Z.eqb_spec i (n - 1)).
              + exists 0. split; [lia|]. split; [lia|congruence].
              + exists i. split; [lia|]. split; auto. }
          destruct Hu' as (i' & Hi0 & Hi' & Hu'). destruct (Z.eqb_spec j (n - 1)) as [->|Hjn].
          -- injection Hv as <-. apply (heap_root a n x) with (m := Z.to_nat (i' + 1)) (k := i' + 1); auto; try lia.
             unfold at1. now replace (i' + 1 - 1) with i' by lia.
          -- apply (Hd i' j); auto; lia.
        * exists r2. split; auto. split; auto. eapply perm_trans; [exact P|]. eapply perm_trans; eauto.
  Qed.

  Lemma heapsort_ok0 a : compares lt cmp a -> exists r, heapsort cmp a 0 (Z.of_nat (length a)) = Some r /\ Permutation a r /\ sorted lt r.
  Proof.
    intros Hc. unfold heapsort. set (n := Z.of_nat (length a)). assert (D : Z.shiftr n 1 = n / 2) by (rewrite Z.shiftr_div_pow2 by lia; reflexivity).
    destruct (heap_build_ok (Z.to_nat (Z.shiftr n 1)) a n) as (r & E1 & R1 & H1); auto; try lia.
    - intros k x y Hk Hk2. rewrite D in Hk2. Z.div_mod_to_equations; lia.
    - rewrite E1. pose proof R1 as (L1 & P1 & _). destruct (heap_drain_ok (Z.to_nat (n - 1)) r n) as (r2 & E2 & P2 & S2); auto; try lia.
      + eapply compares_perm; [apply R1|auto].
      + intros i j x y Hij Hj Hx Hy. apply zrd_inv in Hy. lia.
      + exists r2. split; auto. split; auto. eapply perm_trans; eauto.
  Qed.

  (** the same at any place of an array *)
  Section Shift.
    Context (pre post : list E).
    Let s := Z.of_nat (length pre).
    Lemma zrd_shift l k x : zrd l k = Some x -> zrd (pre ++ l ++ post) (s + k) = Some x.
    Proof.
      clear. intros H. pose proof (zrd_inv _ _ _ H) as [Hk Hx]. rewrite zrd_some by lia. replace (Z.to_nat (s + k)) with (length pre + Z.to_nat k)%nat by lia.
      rewrite nth_error_app2, nth_error_app1 by lia. rewrite <- Hx. f_equal. lia.
    Qed.
    Lemma zwr_shift l k x l' : zwr l k x = Some l' -> zwr (pre ++ l ++ post) (s + k) x = Some (pre ++ l' ++ post).
    Proof.
      clear. intros H. pose proof (zwr_inv _ _ _ _ H) as [Hk ->]. rewrite zwr_some by (rewrite !app_length; lia). f_equal.
      replace (Z.to_nat (s + k)) with (length pre + Z.to_nat k)%nat by lia. rewrite upd_app_r by lia. f_equal.
      replace (length pre + Z.to_nat k - length pre)%nat with (Z.to_nat k) by lia. rewrite upd_app_l by lia. auto.
    Qed.
    Ltac sh := repeat match goal with
      | |- context [zrd (pre ++ ?l ++ post) ?k] =>
          match goal with H : zrd l ?k0 = Some ?x |- _ => replace k with (s + k0) by lia; rewrite (zrd_shift _ _ _ H) end
      | |- context [zwr (pre ++ ?l ++ post) ?k ?x] =>
          match goal with H : zwr l ?k0 x = Some ?l' |- _ => replace k with (s + k0) by lia; rewrite (zwr_shift _ _ _ _ H) end
      end.
    Lemma sift_shift fuel : forall l n i j tmp r, sift cmp fuel l 0 n i j tmp = Some r -> sift cmp fuel (pre ++ l ++ post) s n i j tmp = Some (pre ++ r ++ post).
    Proof.
      induction fuel as [|f IH]; intros l n i j tmp r H.
      - unfold sift in *. destruct (j <=? n); [discriminate|]. replace (s + i - 1) with (s + (0 + i - 1)) by lia. now apply zwr_shift.
      - cbn [sift] in *. destruct (j <=? n).
        2:{ replace (s + i - 1) with (s + (0 + i - 1)) by lia. now apply zwr_shift. }
        destruct (j <? n).
        + destruct (zrd l (0 + j - 1)) as [u|] eqn:Eu; [|discriminate]. destruct (zrd l (0 + j)) as [v|] eqn:Ev; [|discriminate].
          replace (s + j - 1) with (s + (0 + j - 1)) at 1 by lia. rewrite (zrd_shift _ _ _ Eu).
          replace (s + j) with (s + (0 + j)) at 1 by lia. rewrite (zrd_shift _ _ _ Ev).
          destruct (cmp u v) as [b|]; [|discriminate]. set (c := if b then j + 1 else j) in *.
          destruct (zrd l (0 + c - 1)) as [x|] eqn:Ex; [|discriminate]. replace (s + c - 1) with (s + (0 + c - 1)) by lia. rewrite (zrd_shift _ _ _ Ex).
          destruct (cmp tmp x) as [[|]|]; [| |discriminate].
          * destruct (zwr l (0 + i - 1) x) as [l'|] eqn:El; [|discriminate]. replace (s + i - 1) with (s + (0 + i - 1)) by lia. rewrite (zwr_shift _ _ _ _ El). auto.
          * replace (s + i - 1) with (s + (0 + i - 1)) by lia. now apply zwr_shift.
        + destruct (zrd l (0 + j - 1)) as [x|] eqn:Ex; [|discriminate]. replace (s + j - 1) with (s + (0 + j - 1)) by lia. rewrite (zrd_shift _ _ _ Ex).
          destruct (cmp tmp x) as [[|]|]; [| |discriminate].
          * destruct (zwr l (0 + i - 1) x) as [l'|] eqn:El; [|discriminate]. replace (s + i - 1) with (s + (0 + i - 1)) by lia. rewrite (zwr_shift _ _ _ _ El). auto.
          * replace (s + i - 1) with (s + (0 + i - 1)) by lia. now apply zwr_shift.
    Qed.
    Lemma build_shift m : forall l n r, heap_build cmp m l 0 n = Some r -> heap_build cmp m (pre ++ l ++ post) s n = Some (pre ++ r ++ post).
    Proof.
      induction m as [|m IH]; intros l n r H; [now injection H as <-|]. cbn [heap_build] in *.
      destruct (zrd l (0 + Z.of_nat (S m) - 1)) as [t|] eqn:Et; [|discriminate]. replace (s + Z.of_nat (S m) - 1) with (s + (0 + Z.of_nat (S m) - 1)) by lia.
      rewrite (zrd_shift _ _ _ Et). destruct (sift cmp _ l 0 n _ _ t) as [l'|] eqn:El; [|discriminate]. rewrite (sift_shift _ _ _ _ _ _ _ El). auto.
    Qed.
    Lemma drain_shift m : forall l n r, heap_drain cmp m l 0 n = Some r -> heap_drain cmp m (pre ++ l ++ post) s n = Some (pre ++ r ++ post).
    Proof.
      induction m as [|m IH]; intros l n r H; [now injection H as <-|]. cbn [heap_drain] in *.
      destruct (zrd l (0 + n - 1)) as [t|] eqn:Et; [|discriminate]. destruct (zrd l 0) as [x|] eqn:Ex; [|discriminate].
      replace (s + n - 1) with (s + (0 + n - 1)) by lia. rewrite (zrd_shift _ _ _ Et).
      replace (zrd (pre ++ l ++ post) s) with (Some x). 2:{ symmetry. rewrite <- (Z.add_0_r s). now apply zrd_shift. }
      destruct (zwr l (0 + n - 1) x) as [l1|] eqn:E1; [|discriminate]. rewrite (zwr_shift _ _ _ _ E1).
      destruct (sift cmp _ l1 0 (n - 1) 1 2 t) as [l2|] eqn:E2; [|discriminate]. rewrite (sift_shift _ _ _ _ _ _ _ E2). auto.
    Qed.
    Lemma heapsort_ok l n : n = Z.of_nat (length l) -> compares lt cmp l ->
      exists r, heapsort cmp (pre ++ l ++ post) s n = Some (pre ++ r ++ post) /\ Permutation l r /\ sorted lt r.
    Proof.
      intros -> Hc. destruct (heapsort_ok0 l Hc) as (r & H & P & S). unfold heapsort in *.
      destruct (heap_build cmp _ l 0 _) as [l1|] eqn:E1; [|discriminate]. rewrite (build_shift _ _ _ _ E1). rewrite (drain_shift _ _ _ _ H). eauto.
    Qed.
  End Shift.
End Heap.
