(** The two heaps of a rolling quantile: sizes and the reported value. *)
From Verif Require Import Base AccumSpec GrpxSpec HeapModel HeapSpec HeapProofs Heap2Proofs Heap3Proofs.
From Verif Require Grpx2Proofs.

Section RQ.
  Context {T U : Type} (less : T -> T -> bool) (valid : T -> bool) (uinv : U) (conv : T -> U) (split_ : T -> T -> U).
  Context (index : nat -> nat) (integral : nat -> bool) (W : nat).
  Notation MAX := (index W + 1).
  Notation MIN := (W - (index W + 1)).
  Notation greater_ := (greater less).
  Implicit Types m : mem T.
  Implicit Types s : @rq T.
  Hypothesis IX : index_ok index integral.

  Lemma index_mono n k : 0 < n -> index n <= index (n + k) <= index n + k.
  Proof. intros H. destruct IX as (_ & X & _). induction k as [| k IH]; [rewrite Nat.add_0_r; lia |]. specialize (X (n + k) ltac:(lia)). rewrite <- plus_n_Sm. lia. Qed.
  Lemma index_le n k : 0 < n <= k -> index n <= index k <= index n + (k - n).
  Proof. intros H. pose proof (index_mono n (k - n) ltac:(lia)) as X. replace (n + (k - n)) with k in X by lia. exact X. Qed.

  Definition count s : nat := length (heaps s).
  Lemma count_eq s : total_non_nan_elements s = count s.
  Proof. unfold total_non_nan_elements, count, heaps. rewrite app_length. lia. Qed.

  Section Lt.
    Context (lt : nat -> nat -> bool).
    Hypothesis O : swo lt.
    Definition full s : Prop := core lt s /\ cross lt (maxh s) (minh s) /\ (count s = 0 \/ length (maxh s) = index (count s) + 1).

    Lemma push_correct E e s x : full s -> agreesE less lt E (elems s) -> incl (heaps s) E -> In e E -> ~ In e (maxh s ++ minh s ++ nans s) -> get (elems s) e = Some x -> count s < W ->
      exists s', PushToCorrectHeap less index MAX MIN e s = Some s' /\ full s' /\ Permutation (heaps s ++ [e]) (heaps s') /\ rest s s' /\ kept (heaps s ++ [e]) (elems s) (elems s').
    Proof.
      intros (C & X & SZ) A I Ie N G L. unfold PushToCorrectHeap. rewrite count_eq, Nat.add_1_r.
      assert (CL : count s = length (maxh s) + length (minh s)) by (unfold count, heaps; apply app_length).
      pose proof IX as (X1 & X2 & _).
      assert (FIN : forall s1, core lt s1 -> Permutation (heaps s ++ [e]) (heaps s1) -> rest s s1 -> kept (heaps s ++ [e]) (elems s) (elems s1) -> length (maxh s1) = index (S (count s)) + 1 ->
        (forall x y, In x (maxh s1) -> In y (minh s1) -> x <> e -> y <> e -> lt y x = false) ->
        exists s', PossiblySwapHeapHeads less s1 = Some s' /\ full s' /\ Permutation (heaps s ++ [e]) (heaps s') /\ rest s s' /\ kept (heaps s ++ [e]) (elems s) (elems s')).
      { intros s1 C1 P1 R1 K1 L1 X'. 
        destruct (swap_heads less index integral W lt O E e s1 C1) as (s2 & E2 & C2 & CR & P2 & LA & LB & R2 & K2); auto.
        - eapply agreesE_kept; eauto.
        - intros q J. eapply Permutation_in in J; [| symmetry; exact P1]. apply in_app_or in J. destruct J as [J | [<- | []]]; auto.
        - exists s2. split; auto.
          assert (CN : count s2 = S (count s)) by (unfold count; rewrite <- (Permutation_length P2), <- (Permutation_length P1), app_length; cbn; lia).
          split; [| split; [etransitivity; eauto | split; [eapply rest_trans; eauto |]]].
          + split; auto. split; auto. right. rewrite LA, L1, CN. reflexivity.
          + eapply kept_incl; [eapply kept_trans; eauto |]. intros q J. apply in_app_or in J. destruct J as [J | J]; auto. eapply Permutation_in; [symmetry; exact P1 | exact J]. }
      destruct (Nat.ltb_spec (index (S (count s))) (length (maxh s))) as [H | H].
      - destruct SZ as [Z | SZ]; [lia |]. assert (C0 : 0 < count s) by lia. specialize (X2 (count s) C0).
        pose proof (index_le (S (count s)) W ltac:(lia)).
        destruct (push_min less index integral W lt O E e s x C A I Ie N G ltac:(lia)) as (s1 & -> & C1 & P1 & M1 & R1 & K1).
        apply FIN; auto.
        + unfold heaps. rewrite M1, <- P1, app_assoc. reflexivity.
        + eapply kept_incl; eauto. intros q. unfold heaps. rewrite !in_app_iff. tauto.
        + rewrite M1. lia.
        + intros a b Ja Jb Na Nb. apply X; [now rewrite <- M1 |]. eapply Permutation_in in Jb; [| symmetry; exact P1]. apply in_app_or in Jb. destruct Jb as [Jb | [<- | []]]; [auto | congruence].
      - assert (HS : length (maxh s) = index (S (count s))).
        { destruct SZ as [Z | SZ]; [specialize (X1 1 ltac:(lia)); rewrite Z in *; lia |]. destruct (Nat.eq_dec (count s) 0) as [Z | Z]; [specialize (X1 1 ltac:(lia)); rewrite Z in *; lia |]. specialize (X2 (count s) ltac:(lia)). lia. }
        pose proof (index_le (S (count s)) W ltac:(lia)).
        destruct (push_max less index integral W lt O E e s x C A I Ie N G ltac:(lia)) as (s1 & -> & C1 & P1 & M1 & R1 & K1).
        apply FIN; auto.
        + unfold heaps. rewrite M1, <- P1, <- !app_assoc. apply Permutation_app_head. apply Permutation_app_comm.
        + eapply kept_incl; eauto. intros q. unfold heaps. rewrite !in_app_iff. tauto.
        + rewrite <- (Permutation_length P1), app_length. cbn. lia.
        + intros a b Ja Jb Na Nb. apply X; [| now rewrite <- M1]. eapply Permutation_in in Ja; [| symmetry; exact P1]. apply in_app_or in Ja. destruct Ja as [Ja | [<- | []]]; [auto | congruence].
    Qed.

    Lemma rebalance_ok E s : core lt s -> cross lt (maxh s) (minh s) -> agreesE less lt E (elems s) -> incl (heaps s) E -> count s < W ->
      length (maxh s) = index (S (count s)) + 1 \/ length (maxh s) = index (S (count s)) ->
      exists s', RebalanceHeaps less index MAX MIN s = Some s' /\ full s' /\ Permutation (heaps s) (heaps s') /\ rest s s' /\ kept (heaps s) (elems s) (elems s').
    Proof.
      intros C X A I L SZ. unfold RebalanceHeaps. rewrite count_eq.
      assert (ID : count s = 0 \/ length (maxh s) = index (count s) + 1 -> exists s', Some s = Some s' /\ full s' /\ Permutation (heaps s) (heaps s') /\ rest s s' /\ kept (heaps s) (elems s) (elems s')).
      { intros H. exists s. split; auto. split; [split; auto |]. repeat split; auto. }
      destruct (Nat.eqb_spec (count s) 0) as [Z | Z]; [apply ID; auto |].
      pose proof IX as (X1 & X2 & _). specialize (X2 (count s) ltac:(lia)). pose proof (X1 (count s) ltac:(lia)). pose proof (index_le (S (count s)) W ltac:(lia)).
      assert (CL : count s = length (maxh s) + length (minh s)) by (unfold count, heaps; apply app_length).
      destruct (Nat.ltb_spec (index (count s) + 1) (length (maxh s))) as [H1 | H1].
      - destruct (maxh s) as [| a maxs] eqn:EA; [cbn in H1; lia |]. cbn [hd_error].
        assert (Ja : In a (maxh s)) by (rewrite EA; now left).
        destruct (erase_max less lt O E a s C A) as (s1 & -> & C1 & P1 & M1 & R1 & K1); [intros; now apply I | auto |].
        destruct (wf_in _ _ _ (c_max lt s C) Ja) as (x & i & G & _). destruct (kept_get _ _ _ _ _ K1 G) as (y & Gy & _).
        assert (R1' := R1). destruct R1' as (N1 & _).
        assert (PA : Permutation (maxh s ++ minh s ++ nans s) (a :: maxh s1 ++ minh s1 ++ nans s1)) by (rewrite M1, N1; exact (Permutation_app_tail _ P1)).
        assert (FR : ~ In a (maxh s1 ++ minh s1 ++ nans s1)) by (pose proof (Permutation_NoDup PA (c_dis lt s C)) as D; now apply NoDup_cons_iff in D).
        assert (L1 : length (maxh s) = S (length (maxh s1))) by (rewrite (Permutation_length P1); reflexivity).
        rewrite EA in L1. cbn in L1. cbn in H1, CL, SZ.
        destruct (push_min less index integral W lt O E a s1 y C1) as (s2 & -> & C2 & P2 & M2 & R2 & K2); auto.
        + eapply agreesE_kept; eauto.
        + intros q J. apply I. unfold heaps in *. apply in_app_or in J. rewrite M1 in J. apply in_or_app. destruct J as [J | J]; auto. left. eapply Permutation_in; [symmetry; exact P1 | now right].
        + apply I. apply in_or_app. now left.
        + rewrite M1. lia.
        + exists s2. split; auto.
          assert (PH : Permutation (heaps s) (heaps s2)).
          { unfold heaps. rewrite M2, <- P2, M1, P1, app_assoc. cbn. apply Permutation_cons_append. }
          assert (CN : count s2 = count s) by (unfold count; now rewrite (Permutation_length PH)).
          split; [| split; auto; split; [eapply rest_trans; eauto |]].
          * split; auto. split; [| right; rewrite CN, M2; lia]. intros p q Jp Jq. rewrite M2 in Jp. assert (Jp' : In p (maxh s)) by (eapply Permutation_in; [symmetry; exact P1 | now right]).
            eapply Permutation_in in Jq; [| symmetry; exact P2]. apply in_app_or in Jq. destruct Jq as [Jq | [<- | []]]; [apply X; [now rewrite <- EA | now rewrite <- M1] |].
            apply (top_max lt O a maxs); [pose proof (c_hmax lt s C) as Hh; now rewrite EA in Hh | now rewrite <- EA].
          * eapply kept_incl; [eapply kept_trans; eauto |]. intros q J. unfold heaps. rewrite M1 in J. apply in_app_or in J. apply in_or_app. destruct J as [J | J]; auto. apply in_app_or in J. destruct J as [J | [<- | []]]; auto.
      - destruct (Nat.ltb_spec (length (maxh s)) (index (count s) + 1)) as [H2 | H2]; [| apply ID; lia].
        destruct (minh s) as [| b mins] eqn:EB; [cbn in CL; lia |]. cbn [hd_error].
        assert (Jb : In b (minh s)) by (rewrite EB; now left).
        destruct (erase_min less lt O E b s C A) as (s1 & -> & C1 & P1 & M1 & R1 & K1); [intros; now apply I | auto |].
        destruct (wf_in _ _ _ (c_min lt s C) Jb) as (x & i & G & _). destruct (kept_get _ _ _ _ _ K1 G) as (y & Gy & _).
        assert (R1' := R1). destruct R1' as (N1 & _).
        assert (PA : Permutation (maxh s ++ minh s ++ nans s) (b :: maxh s1 ++ minh s1 ++ nans s1)).
        { rewrite M1, N1. rewrite (Permutation_app_tail (nans s) P1). cbn. symmetry. apply Permutation_middle. }
        assert (FR : ~ In b (maxh s1 ++ minh s1 ++ nans s1)) by (pose proof (Permutation_NoDup PA (c_dis lt s C)) as D; now apply NoDup_cons_iff in D).
        destruct (push_max less index integral W lt O E b s1 y C1) as (s2 & -> & C2 & P2 & M2 & R2 & K2); auto.
        + eapply agreesE_kept; eauto.
        + intros q J. apply I. unfold heaps in *. apply in_app_or in J. rewrite M1 in J. apply in_or_app. destruct J as [J | J]; auto. right. eapply Permutation_in; [symmetry; exact P1 | now right].
        + apply I. apply in_or_app. now right.
        + rewrite M1. lia.
        + exists s2. split; auto.
          assert (PH : Permutation (heaps s) (heaps s2)).
          { unfold heaps. rewrite M2, <- P2, M1, P1, <- app_assoc. reflexivity. }
          assert (CN : count s2 = count s) by (unfold count; now rewrite (Permutation_length PH)).
          split; [| split; auto; split; [eapply rest_trans; eauto |]].
          * split; auto. split; [| right; rewrite CN, <- (Permutation_length P2), app_length, M1; cbn; lia]. intros p q Jp Jq. rewrite M2 in Jq. assert (Jq' : In q (minh s)) by (eapply Permutation_in; [symmetry; exact P1 | now right]).
            eapply Permutation_in in Jp; [| symmetry; exact P2]. apply in_app_or in Jp. destruct Jp as [Jp | [<- | []]]; [apply X; [now rewrite <- M1 | now rewrite <- EB] |].
            apply (top_min lt O b mins); [pose proof (c_hmin lt s C) as Hh; now rewrite EB in Hh | now rewrite <- EB].
          * eapply kept_incl; [eapply kept_trans; eauto |]. intros q J. unfold heaps. rewrite M1 in J. apply in_app_or in J. apply in_or_app. destruct J as [J | J]; auto. apply in_app_or in J. destruct J as [J | [<- | []]]; auto.
    Qed.
  End Lt.

  (* the data of an element of a heap was replaced: lt0 is the order before *)
  Lemma ok_gt lt : swo lt -> swo (gt lt).
  Proof. intros (A & B & C). split; [| split]; unfold gt; intros; eauto. Qed.
  Lemma apply_max lt0 lt E e s : swo lt -> core lt0 s -> agreesE less lt E (elems s) -> incl (heaps s) E -> In e (maxh s) ->
    (forall i, nth_error (maxh s) i = Some e -> down_pre lt (maxh s) i) -> heap_ok (gt lt) (minh s) ->
    exists s', ApplyChangeInCorrespondingHeap less e s = Some s' /\ core lt s' /\ Permutation (maxh s) (maxh s') /\ minh s' = minh s /\ rest s s' /\ kept (maxh s) (elems s) (elems s').
  Proof.
    intros (irr & tr & ntr) C A I Ie D HN. unfold ApplyChangeInCorrespondingHeap. destruct (wf_in _ _ _ (c_max lt0 s C) Ie) as (x & i & G & P & Ei). rewrite G.
    pose proof (c_lmax lt0 s C e Ie) as Lx. unfold loc_of in Lx. rewrite G in Lx. cbn in Lx. inversion Lx as [Lx']. rewrite Lx', P. cbn [ApplyElementChange].
    pose proof (nth_error_Some_lt _ _ _ Ei) as Li.
    destruct (sift_ok less lt irr tr ntr i (maxh s) (elems s) Li (c_max lt0 s C)) as (h' & m' & -> & (PM & W' & K) & O').
    - intros a b Ia Ib. apply A; apply I; apply in_or_app; auto.
    - auto.
    - exists (set_max (h', m') s). split; auto. pose proof (keep_kept _ _ _ K) as KK. split; [| repeat split; cbn; auto; apply KK].
      split; cbn [elems maxh minh nans set_max fst snd]; auto.
      + eapply wf_keep; [apply (c_min lt0 s C) | exact K |]. intros a Ia J. now apply (dis_mm s (c_dis lt0 s C) a).
      + eapply Permutation_NoDup; [apply Permutation_app_tail; exact PM |]. apply C.
      + intros a Ia. rewrite (loc_keep _ _ _ a K). apply (c_lmax lt0 s C). eapply Permutation_in; [symmetry; exact PM | auto].
      + intros a Ia. rewrite (loc_keep _ _ _ a K). now apply (c_lmin lt0 s C).
      + intros a Ia. rewrite (loc_keep _ _ _ a K). now apply (c_lnan lt0 s C).
  Qed.
  Lemma apply_min lt0 lt E e s : swo lt -> core lt0 s -> agreesE less lt E (elems s) -> incl (heaps s) E -> In e (minh s) ->
    (forall i, nth_error (minh s) i = Some e -> down_pre (gt lt) (minh s) i) -> heap_ok lt (maxh s) ->
    exists s', ApplyChangeInCorrespondingHeap less e s = Some s' /\ core lt s' /\ Permutation (minh s) (minh s') /\ maxh s' = maxh s /\ rest s s' /\ kept (minh s) (elems s) (elems s').
  Proof.
    intros SW C A I Ie D HN. destruct (ok_gt lt SW) as (irr & tr & ntr). unfold ApplyChangeInCorrespondingHeap. destruct (wf_in _ _ _ (c_min lt0 s C) Ie) as (x & i & G & P & Ei). rewrite G.
    pose proof (c_lmin lt0 s C e Ie) as Lx. unfold loc_of in Lx. rewrite G in Lx. cbn in Lx. inversion Lx as [Lx']. rewrite Lx', P. cbn [ApplyElementChange].
    pose proof (nth_error_Some_lt _ _ _ Ei) as Li.
    destruct (sift_ok greater_ (gt lt) irr tr ntr i (minh s) (elems s) Li (c_min lt0 s C)) as (h' & m' & -> & (PM & W' & K) & O').
    - intros a b Ia Ib. apply (agreesE_g less lt E _ A); apply I; apply in_or_app; auto.
    - auto.
    - exists (set_min (h', m') s). split; auto. pose proof (keep_kept _ _ _ K) as KK. split; [| repeat split; cbn; auto; apply KK].
      split; cbn [elems maxh minh nans set_min fst snd]; auto.
      + eapply wf_keep; [apply (c_max lt0 s C) | exact K |]. intros a Ia J. now apply (dis_mm s (c_dis lt0 s C) a).
      + eapply Permutation_NoDup; [apply Permutation_app_head, Permutation_app_tail; exact PM |]. apply C.
      + intros a Ia. rewrite (loc_keep _ _ _ a K). now apply (c_lmax lt0 s C).
      + intros a Ia. rewrite (loc_keep _ _ _ a K). apply (c_lmin lt0 s C). eapply Permutation_in; [symmetry; exact PM | auto].
      + intros a Ia. rewrite (loc_keep _ _ _ a K). now apply (c_lnan lt0 s C).
  Qed.
End RQ.
