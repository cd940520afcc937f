(** Sorting by partitions, and IsSorted. *)
From Verif Require Import Base Mem MemLemmas Num SortModel SortSpec SortProofs Sort2Proofs Sort4Proofs Sort5Proofs.
Local Open Scope Z_scope.

Lemma rows_seg {E} (a : list E) s n : rows a s n = seg a s (s + n).
Proof. unfold rows, seg. f_equal. lia. Qed.

Definition apart (p q : Z * Z) : Prop := fst p + snd p <= fst q \/ fst q + snd q <= fst p.
Lemma apart_perm ps qs : Permutation ps qs -> ForallOrdPairs apart ps -> ForallOrdPairs apart qs.
Proof.
  induction 1 as [|x l l' P IH|x y l|l l' l'' P1 IH1 P2 IH2]; intros H; auto.
  - inversion H; subst. constructor; auto. eapply Permutation_Forall; eauto.
  - inversion H as [|? ? H1 H2]; subst. inversion H1; subst. inversion H2; subst. constructor; [constructor; auto; unfold apart in *; tauto|]. constructor; auto.
Qed.
Lemma parts_in start n cutoffs p : cutoffs_ok start n cutoffs -> In p (parts start cutoffs) -> start <= fst p /\ 0 <= snd p /\ fst p + snd p <= n.
Proof.
  revert start. induction cutoffs as [|c r IH]; intros start H; [intros []|]. destruct H as [H1 H2].
  assert (c <= n). { clear -H2. revert c H2. induction r as [|d r IH]; intros c H; cbn in H; [lia|]. destruct H as [H1 H2]. specialize (IH _ H2). lia. }
  intros [<-|H3]; cbn [fst snd]; [lia|]. specialize (IH _ H2 H3). lia.
Qed.
Lemma parts_apart start n cutoffs : cutoffs_ok start n cutoffs -> ForallOrdPairs apart (parts start cutoffs).
Proof.
  revert start. induction cutoffs as [|c r IH]; intros start H; [constructor|]. destruct H as [H1 H2]. cbn [parts]. constructor; auto.
  apply Forall_forall. intros p Hp. eapply parts_in in Hp; eauto. unfold apart. cbn [fst snd]. lia.
Qed.

Section Parts.
  Context (junk : list Z) (c : column) (lt : Z -> Z -> bool) (sw : strict_weak lt) (n : Z) (Hn : n <= Z.of_nat (length junk))
    (Hc : compares lt (c_lt c) (arange n)).
  Lemma shifted_sw s : strict_weak (shifted s lt).
  Proof. destruct sw as [A B]. unfold shifted. split; intros *; eauto. Qed.
  Let f (p : Z * Z) (a : list Z) := mergesort (shift_col (fst p) c) (c_check c) junk a (fst p) (snd p).

  Lemma run_parts_ok ps : forall a, Z.of_nat (length a) = n ->
    (forall p, In p ps -> 0 <= fst p /\ 0 <= snd p /\ fst p + snd p <= n /\ forall x, In x (rows a (fst p) (snd p)) -> 0 <= x < snd p) ->
    ForallOrdPairs apart ps ->
    exists r, run_parts f ps a = Some r /\ length r = length a /\
      (forall p, In p ps -> stable_sort (shifted (fst p) lt) (rows a (fst p) (snd p)) (rows r (fst p) (snd p))) /\
      (forall q, 0 <= fst q -> 0 <= snd q -> fst q + snd q <= n -> (forall p, In p ps -> apart p q) -> rows r (fst q) (snd q) = rows a (fst q) (snd q)).
  Proof.
    induction ps as [|p ps IH]; intros a La Hp Hd.
    - exists a. split; auto. split; auto. split; [intros p []|auto].
    - inversion Hd as [|? ? H1 H2]; subst. destruct (Hp p (or_introl eq_refl)) as (P1 & P2 & P3 & P4).
      cbn [run_parts]. unfold f at 1. rewrite rows_seg in P4.
      pose proof (seg_split a (fst p) (fst p + snd p) ltac:(lia) ltac:(lia)) as Sa.
      pose proof (seg_length a (fst p) (fst p + snd p) ltac:(lia) ltac:(lia)) as Ls.
      destruct (mergesort_ok (shift_col (fst p) c) (shifted (fst p) lt) (shifted_sw _) (c_check c) junk (seg a (fst p) (fst p + snd p))
        (firstn (Z.to_nat (fst p)) a) (skipn (Z.to_nat (fst p + snd p)) a) (fst p) (snd p)) as (r1 & E1 & S1); auto.
      { rewrite firstn_length. lia. } { lia. } { lia. }
      { intros i j Hi Hj. apply P4 in Hi, Hj. unfold shift_col, shifted. apply Hc; apply arange_In; lia. }
      rewrite <- Sa in E1. rewrite E1. set (b := firstn (Z.to_nat (fst p)) a ++ r1 ++ skipn (Z.to_nat (fst p + snd p)) a).
      pose proof (stable_length _ _ _ S1) as L1.
      assert (Lb : length b = length a). { subst b. rewrite !app_length, firstn_length, skipn_length. lia. }
      assert (Out : forall q, 0 <= fst q -> 0 <= snd q -> apart p q -> rows b (fst q) (snd q) = rows a (fst q) (snd q)).
      { intros q Q1 Q2 Q3. rewrite !rows_seg. apply seg_out; unfold apart in Q3; lia. }
      destruct (IH b) as (r & E2 & L2 & S2 & O2); [lia| |auto|].
      { intros q Hq. destruct (Hp q (or_intror Hq)) as (Q1 & Q2 & Q3 & Q4). split; auto. split; auto. split; auto.
        rewrite Out; auto. rewrite Forall_forall in H1. auto. }
      exists r. split; auto. split; [lia|]. split.
      + intros q [<-|Hq].
        * rewrite (O2 p P1 P2 P3). 2: { intros q Hq. rewrite Forall_forall in H1. specialize (H1 q Hq). unfold apart in *. tauto. }
          rewrite !rows_seg. subst b. rewrite seg_mid; auto; rewrite ?firstn_length; lia.
        * destruct (Hp q (or_intror Hq)) as (Q1 & Q2 & Q3 & Q4). rewrite <- (Out q) by (auto; rewrite Forall_forall in H1; auto). auto.
      + intros q Q1 Q2 Q3 Q4. rewrite O2 by (auto; intros; apply Q4; now right). apply Out; auto. apply Q4. now left.
  Qed.

  Lemma sort_partitions_ok ord cutoffs a : fair ord -> cutoffs_ok 0 n cutoffs -> Z.of_nat (length a) = n ->
    (forall p, In p (parts 0 cutoffs) -> forall x, In x (rows a (fst p) (snd p)) -> 0 <= x < snd p) ->
    exists r, sort_partitions ord junk c cutoffs a = Some r /\ length r = length a /\
      forall p, In p (parts 0 cutoffs) -> stable_sort (shifted (fst p) lt) (rows a (fst p) (snd p)) (rows r (fst p) (snd p)).
  Proof.
    intros Ho Hk La Hx. pose proof (Ho _ (parts 0 cutoffs)) as Po.
    destruct (run_parts_ok (ord _ (parts 0 cutoffs)) a La) as (r & E1 & L1 & S1 & _).
    - intros p Hp. apply (Permutation_in _ Po) in Hp. pose proof (parts_in _ _ _ _ Hk Hp). repeat split; try lia; eapply Hx; eauto.
    - eapply apart_perm; [apply Permutation_sym, Po|]. eapply parts_apart; eauto.
    - exists r. split; auto. split; auto. intros p Hp. apply S1. apply (Permutation_in _ (Permutation_sym Po)); auto.
  Qed.
End Parts.

Lemma part_arange_length start n cutoffs : cutoffs_ok start n cutoffs -> Z.of_nat (length (part_arange start cutoffs)) = n - start.
Proof. revert start. induction cutoffs as [|c r IH]; intros start H; cbn in *; [lia|]. destruct H as [H1 H2]. rewrite app_length, arange_length. specialize (IH _ H2). lia. Qed.
Lemma part_arange_rows start n cutoffs p : cutoffs_ok start n cutoffs -> In p (parts start cutoffs) -> rows (part_arange start cutoffs) (fst p - start) (snd p) = arange (snd p).
Proof.
  revert start. induction cutoffs as [|c r IH]; intros start H; [intros []|]. destruct H as [H1 H2]. cbn [parts part_arange]. intros [<-|Hp].
  - cbn [fst snd]. rewrite Z.sub_diag. unfold rows. cbn [Z.to_nat skipn]. rewrite firstn_app, arange_length, Nat.sub_diag. cbn [firstn]. rewrite app_nil_r.
    apply firstn_all2. rewrite arange_length. lia.
  - rewrite <- (IH c H2 Hp). pose proof (parts_in _ _ _ _ H2 Hp). unfold rows. f_equal. rewrite skipn_app, skipn_all2, arange_length by (rewrite arange_length; lia).
    cbn [app]. f_equal. lia.
Qed.

Lemma lex_shifted s lts : forall i j, lex_lt (map (shifted s) lts) i j = shifted s (lex_lt lts) i j.
Proof. unfold shifted. induction lts as [|lt lts IH]; intros i j; auto. cbn [map lex_lt]. now rewrite !IH. Qed.

Lemma LexSort_cutoffs_ok ord junk cutoffs n cols lts : fair ord -> cutoffs_ok 0 n cutoffs -> n <= Z.of_nat (length junk) -> columns_ok (arange n) cols lts ->
  exists r, LexSort_cutoffs ord junk None cutoffs n cols = Some r /\ length r = Z.to_nat n /\
    forall p, In p (parts 0 cutoffs) -> argsort (shifted (fst p) (lex_lt lts)) (snd p) (rows r (fst p) (snd p)).
Proof.
  intros Ho Hk Hj Hc. unfold LexSort_cutoffs. pose proof (part_arange_length 0 n cutoffs Hk) as Lp.
  rewrite (writes_enum _ (part_arange 0 cutoffs)); [|auto|rewrite repeat_length; lia].
  set (a := part_arange 0 cutoffs) in *.
  assert (G : forall cols lts a ts, columns_ok (arange n) cols lts -> Z.of_nat (length a) = n ->
    (forall p, In p (parts 0 cutoffs) -> forall x, In x (rows a (fst p) (snd p)) -> 0 <= x < snd p) ->
    exists r, lex_loop (fun _ c a => sort_partitions ord junk c cutoffs a) ts cols a = Some r /\ length r = length a /\
      forall p, In p (parts 0 cutoffs) -> stable_sort (shifted (fst p) (lex_lt lts)) (rows a (fst p) (snd p)) (rows r (fst p) (snd p))).
  { clear - Ho Hk Hj. intros cols lts a ts H. revert a ts. induction H as [|c lt cols lts [H1 H2] H3 IH]; intros a ts La Ha.
    - exists a. split; auto. split; auto. intros p Hp. split; auto. split; [intros i j x y _ _ _; auto|auto].
    - destruct (sort_partitions_ok junk c lt H1 n Hj H2 ord cutoffs a Ho Hk La Ha) as (b & E1 & L1 & S1). cbn [lex_loop]. rewrite E1.
      destruct (IH b (tl ts)) as (r & E2 & L2 & S2); [lia| |]. { intros p Hp x Hx. apply (stable_in _ _ _ (S1 p Hp)) in Hx. eauto. }
      exists r. split; auto. split; [lia|]. intros p Hp. apply stable_ext with (f := lex_lt (map (shifted (fst p)) (lt :: lts))); [apply lex_shifted|]. cbn [map lex_lt].
      apply (then_stable (lex_lt (map (shifted (fst p)) lts)) (shifted (fst p) lt)) with (b := rows b (fst p) (snd p)); auto.
      + apply lex_sw. clear -H3. induction H3; constructor; auto. apply shifted_sw. tauto.
      + eapply stable_ext; [|apply S2; auto]. intros; now rewrite lex_shifted. }
  destruct (G cols lts a [] Hc) as (r & E1 & L1 & S1); [lia| |].
  { intros p Hp x Hx. pose proof (part_arange_rows 0 n cutoffs p Hk Hp) as Ra. rewrite Z.sub_0_r in Ra. subst a. rewrite Ra in Hx. now apply arange_In in Hx. }
  exists r. split; auto. split; [lia|]. intros p Hp. apply argsort_ok.
  - apply shifted_sw. apply lex_sw. clear -Hc. induction Hc; constructor; tauto.
  - specialize (S1 p Hp). pose proof (part_arange_rows 0 n cutoffs p Hk Hp) as Ra. rewrite Z.sub_0_r in Ra. subst a. now rewrite Ra in S1.
Qed.

(** ** IsSorted *)
Section IsSorted.
  Context {T : Type} (ge : T -> T -> bool) (nan : T -> bool).
  Context (ge_nan : forall x y, ge x y = true -> nan x = false /\ nan y = false) (ge_tr : forall x y z, ge x y = true -> ge y z = true -> ge x z = true).

  (* rows j-1 and j are in order *)
  Definition step_ok (a : list T) (j : nat) : Prop :=
    forall x y, nth_error a (j - 1) = Some x -> nth_error a j = Some y -> ge y x = true \/ nan y = true.
  Definition all_ok (a : list T) : Prop := forall j, (1 <= j)%nat -> step_ok a j.

  Lemma all_ok_spec a : all_ok a <-> nondecreasing ge nan a.
  Proof.
    split.
    - induction a as [|x a IH]; intros H.
      + exists [], []. split; auto. split; [constructor|]. intros [|i] j; discriminate.
      + assert (Ha : all_ok a). { intros j Hj y z Hy Hz. apply (H (S j)); [lia| |exact Hz]. replace (S j - 1)%nat with (S (j - 1)) by lia. auto. }
        destruct (IH Ha) as (l & r & -> & F & S). destruct l as [|y l].
        * destruct (nan x) eqn:N.
          -- exists [], (x :: r). split; [auto|]. split; [now constructor|]. intros [|i] j; discriminate.
          -- exists [x], r. split; auto. split; auto. intros [|i] [|[|j]] u w L; try lia; discriminate.
        * destruct (H 1%nat ltac:(lia) x y eq_refl eq_refl) as [G|N].
          -- exists (x :: y :: l), r. split; auto. split; auto. intros [|i] [|j] u w L; try lia; cbn [nth_error].
             ++ intros [= <-] Hw. destruct j as [|j]; [injection Hw as <-; auto|]. eapply ge_tr; [|exact G]. apply (S 0%nat (Datatypes.S j)); auto. lia.
             ++ apply S. lia.
          -- (* y is NaN: l is empty *)
             assert (l = []). { destruct l as [|z l]; auto. exfalso. pose proof (S 0%nat 1%nat y z ltac:(lia) eq_refl eq_refl) as G. apply ge_nan in G. destruct G; congruence. }
             subst l. destruct (nan x) eqn:Nx.
             ++ exists [], (x :: y :: r). split; [auto|]. split; [repeat constructor; auto|]. intros [|i] j; discriminate.
             ++ exists [x], (y :: r). split; auto. split; [constructor; auto|]. intros [|i] [|[|j]] u w L; try lia; discriminate.
    - intros (l & r & -> & F & S) j Hj x y Hx Hy. destruct (Nat.ltb_spec j (length l)).
      + rewrite nth_error_app1 in Hx, Hy by lia. left. apply (S (j - 1)%nat j); auto. lia.
      + rewrite nth_error_app2 in Hy by lia. right. rewrite Forall_forall in F. apply F. eapply nth_error_In; eauto.
  Qed.

  Lemma sorted_scan_ok a n : (n < length a)%nat -> exists i, sorted_scan ge a n = Some i /\
    (i = O <-> forall j x y, (1 <= j <= n)%nat -> nth_error a (j - 1) = Some x -> nth_error a j = Some y -> ge y x = true).
  Proof.
    induction n as [|n IH]; intros Hn.
    - exists O. split; auto. split; auto. lia.
    - cbn [sorted_scan]. destruct (nth_error_lt a (S n) Hn) as (y & Hy). destruct (nth_error_lt a n ltac:(lia)) as (x & Hx). rewrite Hy, Hx.
      destruct (ge y x) eqn:G.
      + destruct (IH ltac:(lia)) as (i & E1 & I1). exists i. split; auto. rewrite I1. split; intros H j u w Hj Hu Hw.
        * destruct (Nat.eq_dec j (S n)) as [-> |]; [|eapply H; eauto; lia]. replace (S n - 1)%nat with n in Hu by lia. congruence.
        * eapply H; eauto. lia.
      + exists (S n). split; auto. split; [discriminate|]. intros H. exfalso. rewrite (H (S n) x y) in G; [discriminate|lia| |auto]. now replace (S n - 1)%nat with n by lia.
  Qed.
  Lemma nan_scan_ok a n : (n < length a)%nat -> exists k, nan_scan nan a n = Some k /\ (k <= n)%nat /\
    (forall j y, (k < j <= n)%nat -> nth_error a j = Some y -> nan y = true) /\ (k = O \/ exists y, nth_error a k = Some y /\ nan y = false).
  Proof.
    induction n as [|n IH]; intros Hn.
    - exists O. split; auto. split; auto. split; auto. lia.
    - cbn [nan_scan]. destruct (nth_error_lt a (S n) Hn) as (y & Hy). rewrite Hy. destruct (nan y) eqn:N.
      + destruct (IH ltac:(lia)) as (k & E1 & Hk & K1 & K2). exists k. split; auto. split; [lia|]. split; auto.
        intros j w Hj Hw. destruct (Nat.eq_dec j (S n)) as [-> |]; [congruence|]. eapply K1; eauto. lia.
      + exists (S n). split; auto. split; auto. split; [lia|]. right. eauto.
  Qed.
  Lemma seg_sorted_ok a s len : (s + len <= length a)%nat -> exists b, IsSortedSeg ge nan a s len = Some b /\
    (b = true <-> forall j, (s < j < s + len)%nat -> step_ok a j).
  Proof.
    intros H. unfold IsSortedSeg. destruct len as [|n]. { exists true. split; auto. split; auto. lia. }
    assert (Ls : (n < length (skipn s a))%nat) by (rewrite skipn_length; lia).
    destruct (nan_scan_ok (skipn s a) n Ls) as (k & -> & Hk & K1 & K2).
    destruct (sorted_scan_ok (skipn s a) k ltac:(lia)) as (i & -> & I1).
    exists (i =? 0)%nat. split; auto. rewrite Nat.eqb_eq, I1. split.
    - intros G j Hj x y Hx Hy. destruct (le_lt_dec (j - s) k).
      + left. apply (G (j - s)%nat); [lia| |]; rewrite nth_error_skipn; [|now replace (s + (j - s))%nat with j by lia].
        now replace (s + (j - s - 1))%nat with (j - 1)%nat by lia.
      + right. apply (K1 (j - s)%nat); [lia|]. rewrite nth_error_skipn. now replace (s + (j - s))%nat with j by lia.
    - intros G. (* down from k, no row is NaN *)
      assert (D : forall m, (m <= k)%nat -> k = O \/ (exists y, nth_error (skipn s a) (k - m) = Some y /\ nan y = false) /\
        forall j x y, (k - m < j <= k)%nat -> nth_error (skipn s a) (j - 1) = Some x -> nth_error (skipn s a) j = Some y -> ge y x = true).
      { induction m as [|m IH]; intros Hm.
        - destruct K2 as [->|K2]; auto. right. rewrite Nat.sub_0_r. split; auto. lia.
        - destruct IH as [->|[(y & Hy & Ny) IH]]; [lia|auto|]. right.
          destruct (nth_error_lt (skipn s a) (k - S m)) as (x & Hx); [lia|].
          assert (Gxy : ge y x = true).
          { destruct (G (s + (k - m))%nat ltac:(lia) x y) as [A|A]; auto; try congruence; rewrite nth_error_skipn in *; auto.
            rewrite <- Hx. f_equal. lia. }
          split; [exists x; split; auto; now apply ge_nan in Gxy|].
          intros j u w Hj Hu Hw. destruct (Nat.eq_dec j (k - m)) as [-> |].
          + replace (k - m - 1)%nat with (k - S m)%nat in Hu by lia. congruence.
          + eapply IH; eauto. lia. }
      intros j x y Hj Hx Hy. destruct (D k ltac:(lia)) as [->|[_ D']]; [lia|]. eapply D'; eauto. lia.
  Qed.

  Lemma chunk_sorted_ok a c : (fst c + snd c <= length a)%nat -> exists b, is_sorted_chunk ge nan a true c = Some b /\
    (b = true <-> forall j, (1 <= j)%nat -> In j (seq (fst c) (snd c)) -> step_ok a j).
  Proof.
    intros H. unfold is_sorted_chunk. destruct (Nat.eqb_spec (fst c) 0) as [E|E].
    - destruct c as [s l]. cbn [fst snd] in *. subst s. destruct (seg_sorted_ok a 0 l H) as (b & -> & Hb). exists b. split; auto. rewrite Hb.
      split; intros G j Hj; [intros Hi; apply in_seq in Hi; apply G; lia|apply G; [lia|apply in_seq; lia]].
    - destruct (seg_sorted_ok a (fst c - 1) (snd c + 1)) as (b & -> & Hb); [lia|]. exists b. split; auto. rewrite Hb.
      split; intros G j Hj; [intros Hi; apply in_seq in Hi; apply G; lia|apply G; [lia|apply in_seq; lia]].
  Qed.
  Lemma chunks_sorted_ok a seen cs : forall k flag, Forall (fun c => (fst c + snd c <= length a)%nat) cs ->
    exists b, is_sorted_chunks ge nan a seen k cs flag = Some b /\
      (b = true <-> flag = true /\ forall c, In c cs -> forall j, (1 <= j)%nat -> In j (seq (fst c) (snd c)) -> step_ok a j).
  Proof.
    induction cs as [|c cs IH]; intros k flag H.
    - exists flag. split; auto. split; [intros; split; auto; intros ? []|tauto].
    - inversion H as [|? ? H1 H2]; subst. cbn [is_sorted_chunks]. destruct flag; cbn [orb andb].
      + destruct (chunk_sorted_ok a c H1) as (b & -> & Hb). destruct (IH (S k) b H2) as (b' & -> & Hb'). exists b'. split; auto.
        rewrite Hb', Hb. split.
        * intros [A B]. split; auto. intros d [<-|Hd]; [exact A|exact (B d Hd)].
        * intros [_ A]. split; [apply A; now left|]. intros d Hd. apply A. now right.
      + assert (exists b, is_sorted_chunk ge nan a (seen k) c = Some b) as (b & ->).
        { destruct (seen k); [|cbn; eauto]. destruct (chunk_sorted_ok a c H1) as (b & -> & _). eauto. }
        destruct (IH (S k) false H2) as (b' & -> & Hb'). exists b'. split; auto. rewrite Hb'. split; intros [? _]; discriminate.
  Qed.

  Lemma IsSorted_ok ord threaded seen a : fair ord -> exists b, IsSorted ge nan ord threaded seen a = Some b /\ (b = true <-> nondecreasing ge nan a).
  Proof.
    intros Ho. unfold IsSorted. set (cs := chunk_calls threaded CHUNK (length a)). pose proof (Ho _ cs) as Po.
    assert (Cov : concat (map (fun p => seq (fst p) (snd p)) cs) = seq 0 (length a)).
    { subst cs. unfold chunk_calls. destruct threaded; [apply chunks_seq; unfold CHUNK; lia|]. cbn. now rewrite app_nil_r. }
    assert (Hin : Forall (fun c => (fst c + snd c <= length a)%nat) cs).
    { apply Forall_forall. intros [s l] Hc. cbn [fst snd]. subst cs. unfold chunk_calls in Hc. destruct threaded.
      - apply chunks_in in Hc; [lia|unfold CHUNK; lia].
      - destruct Hc as [[= <- <-]|[]]. lia. }
    destruct (chunks_sorted_ok a seen (ord _ cs) 0 true) as (b & E1 & Hb). { eapply Permutation_Forall; [apply Permutation_sym, Po|auto]. }
    exists b. split; auto. rewrite Hb, <- all_ok_spec. split.
    - intros [_ H] j Hj. destruct (Nat.ltb_spec j (length a)) as [L|L].
      + assert (Hs : In j (seq 0 (length a))) by (apply in_seq; lia). rewrite <- Cov in Hs. apply in_concat in Hs as (l & Hl & Hs).
        apply in_map_iff in Hl as (c & <- & Hc). eapply H; eauto. apply (Permutation_in _ (Permutation_sym Po)); auto.
      + intros x y _ Hy. apply nth_error_Some_lt in Hy. lia.
    - intros H. split; auto.
  Qed.
End IsSorted.
