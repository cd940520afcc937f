(** The calls of the functions on packed groups, and the counterexamples. *)
From Verif Require Import Base Mem MemLemmas Num GroupModel GroupSpec GroupProofs AccumSpec GrpxModel GrpxSpec GrpxProofs Grpx2Proofs Grpx3Proofs.
From Verif Require Accum5Proofs SortModel SortSpec Sort3Proofs.
Local Open Scope Z_scope.

Section Calls.
  Context {T U : Type} (n : Z) (keys : list Z) (src : list T) (ncount igroup ifirst : list Z) (uinv : U) (conv : T -> U).
  Hypothesis lay : layout n keys src ncount igroup ifirst.
  Notation vals g := (group_vals (combine keys src) g).
  Context (ord : sched) (thr : bool) (numCores nrows low high : Z) (out0 : list U).
  Hypothesis Ho : fair ord.
  Hypothesis Hl : 0 <= low <= high.
  Hypothesis Hh : high <= n.
  Hypothesis Ln : n = Z.of_nat (length out0).

  Lemma vals_in g : incl (vals g) src.
  Proof.
    clear. intros x Hx. unfold group_vals in Hx. apply in_map_iff in Hx as ((k & y) & <- & Hp). apply filter_In in Hp as [Hp _].
    eapply in_combine_r; eauto.
  Qed.
  Lemma vals_le g : (length (vals g) <= length src)%nat.
  Proof.
    clear. unfold group_vals. rewrite map_length. transitivity (length (combine keys src)); [|rewrite combine_length; lia].
    induction (combine keys src) as [|a l IH]; simpl; auto. destruct (fst a =? g); simpl; lia.
  Qed.

  Lemma pick_call (f : @xfun U) (F : Z -> U) (P : list T -> U -> Prop) : (forall g, 0 <= g < n -> f g = Some [(g, F g)] /\ P (vals g) (F g)) ->
    exists res, GroupByAllPack32 ord thr false numCores nrows (xcall f) low high n out0 = Some res /\ per_bin P low high keys src out0 res.
  Proof.
    intros H. destruct (pack_call ord thr false numCores nrows f F low high n out0) as (res & E & L & H1 & H2); auto; [apply H|].
    exists res. split; auto. split; auto. split; [|now apply H2].
    intros g Hg. exists (F g). split; [auto|apply H; lia].
  Qed.
  Lemma call_nth k : exists res, GroupByAllPack32 ord thr false numCores nrows (xcall (AccumNth src igroup ifirst ncount uinv conv k)) low high n out0 = Some res /\
    per_bin (nth_spec uinv conv k) low high keys src out0 res.
  Proof. eapply pick_call. intros g Hg. split; [apply (nth_bin n keys src ncount igroup ifirst uinv conv lay k g Hg)|reflexivity]. Qed.
  Lemma call_first : exists res, GroupByAllPack32 ord thr false numCores nrows (xcall (AccumFirst src igroup ifirst ncount uinv conv)) low high n out0 = Some res /\
    per_bin (first_spec uinv conv) low high keys src out0 res.
  Proof. eapply pick_call. intros g Hg. split; [apply (first_bin n keys src ncount igroup ifirst uinv conv lay g Hg)|reflexivity]. Qed.
  Lemma call_last : exists res, GroupByAllPack32 ord thr false numCores nrows (xcall (AccumLast src igroup ifirst ncount uinv conv)) low high n out0 = Some res /\
    per_bin (last_spec uinv conv) low high keys src out0 res.
  Proof. eapply pick_call. intros g Hg. split; [apply (last_bin n keys src ncount igroup ifirst uinv conv lay g Hg)|reflexivity]. Qed.

  (** functions on the copied values: the threaded call, and the sequential call, give the same *)
  Lemma group_call (h : list T -> option U) (P : list T -> U -> Prop) : (forall l, incl l src -> (length l <= length src)%nat -> exists r, h l = Some r /\ P l r) -> P [] uinv ->
    exists res seq, GroupByAllPack32 ord thr true numCores nrows (xcall (on_group src igroup ifirst ncount uinv h)) low high n out0 = Some res /\
      GroupByX (xcall (on_group src igroup ifirst ncount uinv h)) low high out0 = Some seq /\
      length res = length out0 /\ reduced P low high (combine keys src) res /\ agree low high res seq /\ per_bin P low high keys src out0 seq.
  Proof.
    intros Hh' Pe.
    set (F := fun g => match vals g with [] => uinv | _ => match h (vals g) with Some r => r | None => uinv end end).
    assert (HF : forall g, 0 <= g < n -> on_group src igroup ifirst ncount uinv h g = Some [(g, F g)]).
    { intros g Hg. apply (on_group_bin n keys src ncount igroup ifirst uinv conv lay h g Hg). right. destruct (Hh' (vals g) (vals_in g) (vals_le g)) as (r & E & _). eauto. }
    assert (HP : forall g, P (vals g) (F g)).
    { intros g. unfold F. destruct (Hh' (vals g) (vals_in g) (vals_le g)) as (r & E & Hp). rewrite E. destruct (vals g); auto. }
    destruct (pack_call ord thr true numCores nrows _ F low high n out0 Ho Hl Hh Ln HF) as (res & E & L & H1 & H2).
    destruct (groupby_x _ F low high out0 Hl ltac:(lia) ltac:(intros; apply HF; lia)) as (sq & E' & L' & H1' & H2').
    exists res, sq. split; auto. split; auto. split; auto. split; [intros g Hg; exists (F g); auto|]. split.
    - intros g Hg. now rewrite H1, H1' by auto.
    - split; auto. split; auto. intros g Hg. exists (F g); auto.
  Qed.

  Lemma band_call (h : list T -> option U) (P : list T -> U -> Prop) cores : 0 < cores -> (forall l, incl l src -> (length l <= length src)%nat -> exists r, h l = Some r /\ P l r) ->
    BandedGroupBy ord (xcall (on_group src igroup ifirst ncount uinv h)) cores n out0 =
    GroupByX (xcall (on_group src igroup ifirst ncount uinv h)) 0 n out0.
  Proof.
    intros Hc Hh'. set (F := fun g => match vals g with [] => uinv | _ => match h (vals g) with Some r => r | None => uinv end end).
    apply (banded ord _ F); auto; [lia|]. intros g Hg.
    apply (on_group_bin n keys src ncount igroup ifirst uinv conv lay h g Hg). right. destruct (Hh' (vals g) (vals_in g) (vals_le g)) as (r & E & _). eauto.
  Qed.
End Calls.

Section Rolls.
  Context {T U : Type} (w n : Z) (keys : list Z) (src : list T) (ncount igroup ifirst : list Z) (uinv : U) (conv : T -> U)
          (zero : U) (add sub : U -> U -> U) (div : U -> Z -> U) (ok : T -> bool) (win low high : Z) (out0 : list U).
  Hypothesis lay : layout n keys src ncount igroup ifirst.
  Hypothesis Hn : 0 < n.
  Hypothesis Hl : 0 <= low <= high.
  Hypothesis Hh : high <= n.
  Hypothesis Lo : length out0 = length keys.
  Hypothesis Hw : 0 < w.
  Hypothesis Hb : Z.of_nat (length keys) + Z.abs win < 2 ^ (w - 1).

  Section Sums.
    Hypothesis Hadd : exact_add zero add.
    Hypothesis Hsub : exact_sub add sub.
    Hypothesis Hwin : 0 <= win.
    Ltac go lem := unfold AccumRollingSum, AccumRollingNanSum, AccumRollingMean, AccumRollingNanMean;
      replace (win <? 0) with false by (symmetry; apply Z.ltb_ge; lia);
      eapply roll_call_ok; [exact lay| |auto..]; intros g Hg; eapply lem; eauto; lia.
    Lemma call_rsum : exists res, GroupByX (AccumRollingSum w src igroup ifirst ncount uinv conv zero add sub win) low high out0 = Some res /\
      per_row uinv (rsum_spec conv zero add win) low high keys src out0 res.
    Proof. go @roll_sum_ok. Qed.
    Lemma call_rnansum : exists res, GroupByX (AccumRollingNanSum w src igroup ifirst ncount uinv conv zero add sub ok win) low high out0 = Some res /\
      per_row uinv (rnansum_spec conv zero add ok win) low high keys src out0 res.
    Proof. go @roll_nansum_ok. Qed.
    Lemma call_rmean : exists res, GroupByX (AccumRollingMean w src igroup ifirst ncount uinv conv zero add sub div win) low high out0 = Some res /\
      per_row uinv (rmean_spec conv zero add div win) low high keys src out0 res.
    Proof. go @roll_mean_ok. Qed.
    Lemma call_rnanmean : exists res, GroupByX (AccumRollingNanMean w src igroup ifirst ncount uinv conv zero add sub div ok win) low high out0 = Some res /\
      per_row uinv (rnanmean_spec uinv conv zero add div ok win) low high keys src out0 res.
    Proof. go @roll_nanmean_ok. Qed.
  End Sums.

  Lemma call_rcount cnt : exists res, GroupByX (AccumRollingCount igroup ifirst ncount uinv cnt win) low high out0 = Some res /\
    per_row uinv (rcount_spec cnt win) low high keys src out0 res.
  Proof. eapply roll_call_ok; [exact lay| |auto..]. intros g Hg. eapply (@roll_count_ok); eauto. Qed.
  Lemma call_rshift : exists res, GroupByX (AccumRollingShift w src igroup ifirst ncount uinv conv win) low high out0 = Some res /\
    per_row uinv (rshift_spec uinv conv win) low high keys src out0 res.
  Proof. eapply roll_call_ok; [exact lay| |auto..]. intros g Hg. eapply (@roll_shift_ok); eauto. Qed.
  Lemma call_rdiff : exists res, GroupByX (AccumRollingDiff w src igroup ifirst ncount uinv conv sub win) low high out0 = Some res /\
    per_row uinv (rdiff_spec uinv conv sub win) low high keys src out0 res.
  Proof. eapply roll_call_ok; [exact lay| |auto..]. intros g Hg. eapply (@roll_diff_ok); eauto. Qed.
End Rolls.

(** ** Instances *)
Lemma ex_layout {T} (src : list T) : length src = 6%nat -> layout 4 ex_keys src ex_ncount ex_igroup ex_ifirst.
Proof.
  intros L. split; [exact L|]. split.
  - split; [reflexivity|]. intros g Hg. assert (g = 0 \/ g = 1 \/ g = 2 \/ g = 3) as [->|[->|[->| ->]]] by lia; reflexivity.
  - split; [reflexivity|]. split; [reflexivity|]. intros g Hg.
    assert (g = 0 \/ g = 1 \/ g = 2 \/ g = 3) as [->|[->|[->| ->]]] by lia; eexists _, _; repeat split; reflexivity.
Qed.

Lemma one_layout {T} (src : list T) n : length src = n -> layout 2 (one_keys n) src [0; Z.of_nat n] (one_rows n) [0; 0].
Proof.
  intros L. unfold one_keys, one_rows. split; [now rewrite repeat_length|].
  assert (C1 : count_of (repeat 1 n) 1 = Z.of_nat n).
  { unfold count_of. f_equal. clear. induction n; simpl; auto. }
  assert (C0 : count_of (repeat 1 n) 0 = 0) by (unfold count_of; clear; induction n; simpl; auto).
  assert (R : forall g, rows_with (repeat 1 n) g = if 1 =? g then map Z.of_nat (seq 0 n) else []).
  { intros g. unfold rows_with. rewrite repeat_length.
    assert (F : forall f : nat -> bool, (forall i, (i < n)%nat -> f i = (1 =? g)) -> filter f (seq 0 n) = if 1 =? g then seq 0 n else []).
    { intros f Hf. rewrite (filter_ext_in _ (fun _ => 1 =? g)) by (intros a Ha; apply in_seq in Ha; apply Hf; lia).
      destruct (1 =? g); [|clear; induction (seq 0 n); auto]. clear. induction (seq 0 n); simpl; congruence. }
    rewrite F; [destruct (1 =? g); auto|]. intros i Hi. rewrite nth_error_repeat by auto. reflexivity. }
  split.
  - split; [reflexivity|]. intros g Hg. assert (g = 0 \/ g = 1) as [->| ->] by lia; [now rewrite C0|now rewrite C1].
  - split; [now rewrite map_length, seq_length, repeat_length|]. split; [reflexivity|]. intros g Hg.
    assert (g = 0 \/ g = 1) as [->| ->] by lia; eexists _, _; repeat split; try reflexivity.
    { now rewrite R. }
    rewrite R. change (1 =? 1) with true. cbv iota. unfold slice. simpl skipn. rewrite Nat2Z.id.
    rewrite <- (seq_length n 0) at 1. rewrite <- (map_length Z.of_nat). apply firstn_all.
Qed.

Lemma z_order_all : order_ok (fun _ => true) Z.ltb.
Proof.
  split; [intros a; apply Z.ltb_irrefl|]. split; intros a b c.
  - rewrite !Z.ltb_lt. lia.
  - intros _ _ _. rewrite !Z.ltb_ge. lia.
Qed.

Lemma compare_order {T} (lt : T -> T -> bool) (ok : T -> bool) : order_ok ok lt -> (forall a b, lt a b = true -> ok a = true /\ ok b = true) ->
  order_ok (fun _ => true) (compare_lt lt ok).
Proof.
  intros (I & Tr & N) Hv. unfold compare_lt. split; [|split].
  - intros a. rewrite I. now destruct (ok a).
  - intros a b c H1 H2. apply orb_true_iff in H1, H2. apply orb_true_iff.
    destruct H1 as [H1|H1], H2 as [H2|H2]; auto.
    + left; eauto.
    + right. apply andb_true_iff in H2 as [H2 _]. rewrite H2. apply Hv in H1 as [H1 _]. now rewrite H1.
    + apply andb_true_iff in H1 as [H1 _]. apply Hv in H2 as [H2 _]. rewrite H2 in H1. discriminate.
    + apply andb_true_iff in H1 as [H1 _], H2 as [_ H2]. rewrite H2 in H1. discriminate.
  - intros a b c _ _ _ H1 H2. apply orb_false_iff in H1 as [H1 K1], H2 as [H2 K2]. apply orb_false_iff.
    destruct (ok a) eqn:Oa, (ok b) eqn:Ob, (ok c) eqn:Oc; try discriminate; split; auto.
    + eauto.
    + destruct (lt a c) eqn:E; auto. apply Hv in E as [E _]. congruence.
    + destruct (lt a c) eqn:E; auto. apply Hv in E as [E _]. congruence.
    + destruct (lt a c) eqn:E; auto. apply Hv in E as [E _]. congruence.
Qed.

Lemma isort_sorts {T} n (lt : T -> T -> bool) : order_ok (fun _ => true) lt -> sorts n lt (isort lt).
Proof. intros H l _. apply (isort_of lt (fun _ => true)); auto. Qed.

Lemma strong_of_sorted {T} (lt : T -> T -> bool) s : SortSpec.sorted lt s -> StronglySorted (fun a b => lt b a = false) s.
Proof.
  induction s as [|x s IH]; intros H; constructor.
  - apply IH. intros i j a b Hij Ha Hb. apply (H (S i) (S j) a b); auto. lia.
  - rewrite Forall_forall. intros y Hy. apply In_nth_error in Hy as [k Hk]. apply (H O (S k) x y); auto. lia.
Qed.
Lemma quick_sorts {T} n (lt : T -> T -> bool) : order_ok (fun _ => true) lt -> Z.of_nat n < 2 ^ 63 -> sorts n lt (quick lt).
Proof.
  intros (I & Tr & N) Hn l Hl.
  assert (sw : SortSpec.strict_weak lt).
  { split.
    - intros x y H. destruct (lt y x) eqn:E; auto. pose proof (Tr _ _ _ H E) as Q. rewrite I in Q. discriminate.
    - intros x y z H. destruct (lt x y) eqn:E; auto. right. destruct (lt y z) eqn:E2; auto. rewrite (N x y z) in H; auto. }
  unfold quick. destruct (Sort3Proofs.quicksort_ok (fun x y => Some (lt x y)) lt sw l) as (r & E & P & S); [lia| |].
  { intros x y _ _. reflexivity. }
  rewrite E. split; auto. now apply strong_of_sorted.
Qed.

Lemma isort_nthel {T} (lt : T -> T -> bool) ok : order_ok ok lt -> nth_elements lt ok (fun l _ => isort lt l).
Proof.
  intros Ho l k Hk Hok. pose proof (proj1 (forallb_forall ok l) Hok) as Hok'.
  destruct (isort_of lt ok Ho l Hok') as [P S]. split; auto.
  pose proof (Permutation_length P) as L. destruct (nth_error (isort lt l) k) as [m|] eqn:E; [|apply nth_error_None in E; lia].
  destruct (nth_error_split _ _ E) as (a & b & El & La). exists a, m, b. split; auto. split; auto.
  rewrite El in S. apply (sorted_app_inv lt ok) in S as (_ & S2 & H). inversion S2 as [|? ? _ F]; subst. rewrite Forall_forall in F. split; auto.
  intros x Hx. apply H; auto. now left.
Qed.

Lemma flt_valid a b : flt a b = true -> fok a = true /\ fok b = true.
Proof. destruct a, b; simpl; auto; discriminate. Qed.
Lemma f_sorts n : sorts n (compare_lt flt fok) (isort (compare_lt flt fok)).
Proof. apply isort_sorts. apply compare_order; [apply Accum5Proofs.f_order|apply flt_valid]. Qed.
Lemma feq_fok x : feq x x = fok x.
Proof. apply feq_refl_nan. Qed.
Lemma f_eq_ok : eq_ok fok flt feq.
Proof.
  intros [| |x|] [| |y|] Ha Hb; try discriminate; auto. simpl.
  destruct (Z.eqb_spec x y), (Z.ltb_spec x y), (Z.ltb_spec y x); auto; lia.
Qed.
Lemma f_le_ok : le_ok fok flt fle.
Proof. intros a b Ha Hb. apply fle_not_lt; unfold fok in *; destruct (is_nan a), (is_nan b); auto; discriminate. Qed.
Lemma z_sorts n : sorts n (compare_lt Z.ltb (fun _ => true)) (isort (compare_lt Z.ltb (fun _ => true))).
Proof. apply isort_sorts. apply compare_order; [apply z_order_all|auto]. Qed.

Lemma z_exact : exact_add 0 Z.add /\ exact_sub Z.add Z.sub.
Proof. split; [split; [|split]|]; unfold exact_sub; intros; lia. Qed.

Lemma roll_oob {U St} (igroup : list Z) step (body : Z -> St -> option (St * U)) m j s : (0 < m)%nat -> zrd igroup j = None -> roll igroup step body m j s = None.
Proof. intros Hm E. destruct m; [lia|]. simpl. now rewrite E. Qed.

Lemma sorted_two a b s : a < b -> sorted_of Z.ltb [a; b] s -> s = [a; b].
Proof.
  intros Hab [P S]. apply Permutation_length_2_inv in P as [->| ->]; auto.
  inversion S as [|? ? _ F]; subst. inversion F as [|? ? H _]; subst. apply Z.ltb_ge in H. lia.
Qed.

(** an even number of valid values, and the invalid value *)
Lemma median_int_refuted : exists keys src ncount igroup ifirst res, layout 2 keys src ncount igroup ifirst /\
  GroupByAllPack32 (fun _ l => l) false true 1 3 (xcall (AccumMedian src igroup ifirst ncount (- 2 ^ 31) (fun x => x)
     (quick (compare_lt Z.ltb (fun _ => true))) Z.eqb (MEDIAN_SPLIT_signed 32))) 0 2 2 [0; 0] = Some res /\
  ~ reduced (median_spec (- 2 ^ 31) (fun x => x) Z.ltb ok32 (fun a b => (a + b) / 2)) 0 2 (combine keys src) res.
Proof.
  exists (one_keys 3), [- 2 ^ 31; 5; 7], [0; 3], (one_rows 3), [0; 0], [- 2 ^ 31; 5].
  split; [apply (one_layout [- 2 ^ 31; 5; 7] 3); reflexivity|]. split; [vm_compute; reflexivity|].
  intros H. destruct (H 1 ltac:(lia)) as (r & E & Hr). vm_compute in E. injection E as <-.
  assert (V : group_vals (combine (one_keys 3) [- 2 ^ 31; 5; 7]) 1 = [- 2 ^ 31; 5; 7]) by reflexivity. rewrite V in Hr.
  unfold median_spec in Hr. change (filter ok32 [- 2 ^ 31; 5; 7]) with [5; 7] in Hr. cbv iota in Hr. destruct Hr as (s & Hs & Hr).
  apply sorted_two in Hs; [|lia]. subst. change (Nat.odd (length [5; 7])) with false in Hr. destruct Hr as (a & b & Ha & Hb & E).
  simpl in Ha, Hb. injection Ha as <-. injection Hb as <-. vm_compute in E. discriminate.
Qed.

Lemma median_overflow : exists src, GroupByAllPack32 (fun _ l => l) false true 1 2 (xcall (AccumMedian src (one_rows 2) [0; 0] [0; 2] (- 2 ^ 31) (fun x => x)
     (quick (compare_lt Z.ltb (fun _ => true))) Z.eqb (MEDIAN_SPLIT_signed 32))) 0 2 2 [0; 0] = None.
Proof. exists [2 ^ 31 - 1; 2 ^ 31 - 1]. vm_compute. reflexivity. Qed.

Lemma median_unsigned : exists a, 0 <= a < 2 ^ 32 /\ GroupByAllPack32 (fun _ l => l) false true 1 2
   (xcall (AccumMedian [a; a] (one_rows 2) [0; 0] [0; 2] (2 ^ 32 - 1) (fun x => x)
     (quick (compare_lt Z.ltb (fun _ => true))) Z.eqb (MEDIAN_SPLIT_unsigned 32))) 0 2 2 [0; 0] = Some [2 ^ 32 - 1; a - 2 ^ 31].
Proof. exists (2 ^ 32 - 2). split; [lia|]. vm_compute. reflexivity. Qed.

Lemma sorted_z_unique s : forall s', Permutation s s' -> StronglySorted (fun a b => (b <? a) = false) s -> StronglySorted (fun a b => (b <? a) = false) s' -> s = s'.
Proof.
  induction s as [|a s IH]; intros s' P S S'; [apply Permutation_nil in P; auto|].
  destruct s' as [|b s']; [apply Permutation_sym, Permutation_nil in P; discriminate|].
  inversion S as [|? ? S1 F1]; subst. inversion S' as [|? ? S2 F2]; subst. rewrite Forall_forall in *.
  assert (a = b).
  { assert (Ha : In a (b :: s')) by (eapply Permutation_in; [exact P|now left]).
    assert (Hb : In b (a :: s)) by (eapply Permutation_in; [symmetry; exact P|now left]).
    destruct Ha as [|Ha]; auto. destruct Hb as [|Hb]; auto. specialize (F1 _ Hb). specialize (F2 _ Ha). apply Z.ltb_ge in F1, F2. lia. }
  subst. f_equal. apply IH; auto. eapply Permutation_cons_inv; eauto.
Qed.

(** quantile 0.29 of the values 0 .. 100: the result is doubled *)
Lemma quantile_refuted : exists src res,
  GroupByAllPack32 (fun _ l => l) false true 1 101 (xcall (AccumQuantile1e9Mult src (one_rows 101) [0; 0] [0; 101] (-1) (fun x => 2 * x)
     (fun _ => true) Z.ltb (fun l _ => isort Z.ltb l) (QUANTILE_SPLIT2_signed 64) false (q_down 290000000) (q_up 290000000))) 0 2 2 [0; 0] = Some res /\
  ~ reduced (quantile_spec (-1) (fun x => 2 * x) Z.ltb (fun _ => true) Z.add false (exact_down 290000000) (exact_up 290000000)) 0 2 (combine (one_keys 101) src) res.
Proof.
  set (l := one_rows 101).
  exists l, [-1; 57]. split; [vm_compute; reflexivity|].
  intros H. destruct (H 1 ltac:(lia)) as (r & E & Hr). vm_compute in E. injection E as <-.
  assert (V : group_vals (combine (one_keys 101) l) 1 = l) by (vm_compute; reflexivity). rewrite V in Hr.
  unfold quantile_spec in Hr. assert (Fl : filter (fun _ => true) l = l) by (vm_compute; reflexivity). rewrite Fl in Hr.
  assert (Fb : negb false && negb (forallb (fun _ => true) l) = false) by (vm_compute; reflexivity). rewrite Fb in Hr.
  assert (Hm : exists s, sorted_of Z.ltb l s /\ exists m, nth_error s 29 = Some m /\ 57 = 2 * m).
  { assert (X : (exact_up 290000000 (length l) =? exact_down 290000000 (length l)) = true) by (vm_compute; reflexivity). rewrite X in Hr.
    assert (Y : Z.to_nat (exact_up 290000000 (length l)) = 29%nat) by (vm_compute; reflexivity). rewrite Y in Hr.
    exact Hr. }
  destruct Hm as (s & _ & m & _ & Em). lia.
Qed.

(** a NaN stays after it has left the window *)
Lemma rolling_nan_refuted : exists src res,
  GroupByX (AccumRollingSum 32 src (one_rows 4) [0; 0] [0; 4] NaN (fun x => x) (Fin 0) fadd fsub 2) 0 2 (repeat NaN 4) = Some res /\
  ~ per_row NaN (rsum_spec (fun x => x) (Fin 0) fadd 2) 0 2 (one_keys 4) src (repeat NaN 4) res.
Proof.
  exists [NaN; Fin 1; Fin 1; Fin 1], [NaN; NaN; NaN; NaN]. split; [vm_compute; reflexivity|].
  intros [_ H]. destruct (H 1 2%nat 2 ltac:(vm_compute; reflexivity)) as [H1 _]. destruct (H1 ltac:(lia) ltac:(lia)) as (u & E & Hu).
  vm_compute in E. injection E as <-. vm_compute in Hu. discriminate.
Qed.

(** int32 row numbers and a window near 2^31 *)
Lemma rolling_window_overflow : exists (src : list Z), layout 4 ex_keys src ex_ncount ex_igroup ex_ifirst /\
  GroupByX (AccumRollingSum 32 src ex_igroup ex_ifirst ex_ncount 0 (fun x => x) 0 Z.add Z.sub (2 ^ 31 - 1)) 0 4 (repeat 0 6) = None.
Proof.
  exists [1; 1; 1; 1; 1; 1]. split; [apply ex_layout; reflexivity|].
  unfold GroupByX, AccumRollingSum, roll_call. change (2 ^ 31 - 1 <? 0) with false. change (0 =? 0) with true. cbv iota.
  assert (M : mark_invalid ex_igroup ex_ifirst ex_ncount 0 0 = Some [(1, 0)]) by (vm_compute; reflexivity). rewrite M.
  unfold xcall. change (Z.to_nat (4 - 1)) with 3%nat. cbn [bin_loop].
  assert (N : roll_sum 32 [1; 1; 1; 1; 1; 1] ex_igroup ex_ifirst ex_ncount (fun x => x) 0 Z.add Z.sub (2 ^ 31 - 1) 1 = None).
  { unfold roll_sum, two_loops. change (zrd ex_ifirst 1) with (Some 1). change (zrd ex_ncount 1) with (Some 3). cbv iota beta zeta.
    match goal with |- match ?e with _ => _ end = None => destruct e as [[ws s]|] end; [|reflexivity].
    rewrite roll_oob; [reflexivity| |reflexivity]. change (wrap 32 (1 + (2 ^ 31 - 1))) with (- 2 ^ 31). lia. }
  now rewrite N.
Qed.

(** ** The property statements *)
From Verif Require Import GrpxFloatProofs.
Section Final.
  Context {T U : Type} (lt eq : T -> T -> bool) (ok : T -> bool) (uinv : U) (conv : T -> U)
          (n : Z) (keys : list Z) (src : list T) (ncount igroup ifirst : list Z)
          (ord : sched) (thr : bool) (numCores nrows low high : Z) (out0 : list U).

  Lemma final_median (qsort : list T -> list T) (split : T -> T -> option T) (mid : T -> T -> T) :
    (forall x, eq x x = ok x) -> sorts (length src) (compare_lt lt ok) qsort ->
    (forall a b, In a src -> In b src -> ok a = true -> ok b = true -> split a b = Some (mid a b)) ->
    layout n keys src ncount igroup ifirst -> fair ord -> 0 <= low <= high -> high <= n -> n = Z.of_nat (length out0) ->
    exists res seq, GroupByAllPack32 ord thr true numCores nrows (xcall (AccumMedian src igroup ifirst ncount uinv conv qsort eq split)) low high n out0 = Some res /\
      GroupByX (xcall (AccumMedian src igroup ifirst ncount uinv conv qsort eq split)) low high out0 = Some seq /\
      length res = length out0 /\ reduced (median_spec uinv conv lt ok mid) low high (combine keys src) res /\
      agree low high res seq /\ per_bin (median_spec uinv conv lt ok mid) low high keys src out0 seq.
  Proof.
    intros He Hs Hsp lay Ho Hl Hh Hn. eapply group_call; eauto; [|reflexivity].
    intros l Hi Hl'. apply median_ok with (len := length src); auto.
  Qed.

  Lemma final_mode (qsort : list T -> list T) :
    (forall x, eq x x = ok x) -> sorts (length src) (compare_lt lt ok) qsort -> order_ok ok lt -> eq_ok ok lt eq ->
    layout n keys src ncount igroup ifirst -> fair ord -> 0 <= low <= high -> high <= n -> n = Z.of_nat (length out0) ->
    exists res seq, GroupByAllPack32 ord thr true numCores nrows (xcall (AccumMode src igroup ifirst ncount uinv conv qsort eq)) low high n out0 = Some res /\
      GroupByX (xcall (AccumMode src igroup ifirst ncount uinv conv qsort eq)) low high out0 = Some seq /\
      length res = length out0 /\ reduced (mode_spec uinv conv lt eq ok) low high (combine keys src) res /\
      agree low high res seq /\ per_bin (mode_spec uinv conv lt eq ok) low high keys src out0 seq.
  Proof.
    intros He Hs Hlt Heq lay Ho Hl Hh Hn. eapply group_call; eauto; [|reflexivity].
    intros l Hi Hl'. apply mode_ok with (len := length src); auto.
  Qed.

  Lemma final_quantile (nthel : list T -> nat -> list T) (split : T -> T -> option U) (mid : T -> T -> U) nanq p :
    order_ok ok lt -> nth_elements lt ok nthel ->
    (forall a b, In a src -> In b src -> ok a = true -> ok b = true -> split a b = Some (mid a b)) ->
    0 <= p <= 10 ^ 9 -> Z.of_nat (length src) <= 2 ^ 53 ->
    layout n keys src ncount igroup ifirst -> fair ord -> 0 <= low <= high -> high <= n -> n = Z.of_nat (length out0) ->
    exists res seq, GroupByAllPack32 ord thr true numCores nrows (xcall (AccumQuantile1e9Mult src igroup ifirst ncount uinv conv ok lt nthel split nanq (q_down p) (q_up p))) low high n out0 = Some res /\
      GroupByX (xcall (AccumQuantile1e9Mult src igroup ifirst ncount uinv conv ok lt nthel split nanq (q_down p) (q_up p))) low high out0 = Some seq /\
      length res = length out0 /\ reduced (quantile_spec uinv conv lt ok mid nanq (q_down p) (q_up p)) low high (combine keys src) res /\
      agree low high res seq /\ per_bin (quantile_spec uinv conv lt ok mid nanq (q_down p) (q_up p)) low high keys src out0 seq.
  Proof.
    intros Hlt Hnth Hsp Hp Hb lay Ho Hl Hh Hn. eapply group_call; eauto.
    - intros l Hi Hle. apply quantile_ok; auto. intros k Hk. destruct (q_bounds p k Hp ltac:(lia) ltac:(lia)) as (A & B & C). lia.
    - unfold quantile_spec. simpl. now rewrite andb_false_r.
  Qed.

  Lemma final_trimmean {D} (le : T -> T -> bool) (nthel : list T -> nat -> list T) ntrim (zero : D) add cast :
    order_ok ok lt -> le_ok ok lt le -> nth_elements lt ok nthel -> (forall d x y, add (add d x) y = add (add d y) x) ->
    (forall n, (0 < n)%nat -> (0 < ntrim n)%nat) ->
    layout n keys src ncount igroup ifirst -> fair ord -> 0 <= low <= high -> high <= n -> n = Z.of_nat (length out0) ->
    exists res seq, GroupByAllPack32 ord thr true numCores nrows (xcall (AccumTrimMeanBR src igroup ifirst ncount uinv ok le nthel ntrim zero add cast)) low high n out0 = Some res /\
      GroupByX (xcall (AccumTrimMeanBR src igroup ifirst ncount uinv ok le nthel ntrim zero add cast)) low high out0 = Some seq /\
      length res = length out0 /\ reduced (trimmean_spec uinv lt le ok ntrim zero add cast) low high (combine keys src) res /\
      agree low high res seq /\ per_bin (trimmean_spec uinv lt le ok ntrim zero add cast) low high keys src out0 seq.
  Proof.
    intros Hlt Hle Hnth Hadd Ht lay Ho Hl Hh Hn. eapply group_call; eauto; [|reflexivity].
    intros l Hi _. apply trimmean_ok; auto.
  Qed.

  Lemma final_band (f : @xfun U) (F : Z -> U) cores : fair ord -> 0 < cores -> 0 <= n <= Z.of_nat (length out0) ->
    (forall g, 0 <= g < n -> f g = Some [(g, F g)]) -> BandedGroupBy ord (xcall f) cores n out0 = GroupByX (xcall f) 0 n out0.
  Proof. apply banded. Qed.

  Lemma final_band_median (qsort : list T -> list T) (split : T -> T -> option T) (mid : T -> T -> T) cores :
    (forall x, eq x x = ok x) -> sorts (length src) (compare_lt lt ok) qsort ->
    (forall a b, In a src -> In b src -> ok a = true -> ok b = true -> split a b = Some (mid a b)) ->
    layout n keys src ncount igroup ifirst -> fair ord -> 0 < cores -> n = Z.of_nat (length out0) ->
    BandedGroupBy ord (xcall (AccumMedian src igroup ifirst ncount uinv conv qsort eq split)) cores n out0 =
    GroupByX (xcall (AccumMedian src igroup ifirst ncount uinv conv qsort eq split)) 0 n out0.
  Proof.
    intros He Hs Hsp lay Ho Hc Hn. eapply (band_call) with (P := median_spec uinv conv lt ok mid); eauto.
    intros l Hi Hl'. apply median_ok with (len := length src); auto.
  Qed.
  Lemma final_band_mode (qsort : list T -> list T) cores :
    (forall x, eq x x = ok x) -> sorts (length src) (compare_lt lt ok) qsort -> order_ok ok lt -> eq_ok ok lt eq ->
    layout n keys src ncount igroup ifirst -> fair ord -> 0 < cores -> n = Z.of_nat (length out0) ->
    BandedGroupBy ord (xcall (AccumMode src igroup ifirst ncount uinv conv qsort eq)) cores n out0 =
    GroupByX (xcall (AccumMode src igroup ifirst ncount uinv conv qsort eq)) 0 n out0.
  Proof.
    intros He Hs Hlt Heq lay Ho Hc Hn. eapply (band_call) with (P := mode_spec uinv conv lt eq ok); eauto.
    intros l Hi Hl'. apply mode_ok with (len := length src); auto.
  Qed.
  Lemma final_band_quantile (nthel : list T -> nat -> list T) (split : T -> T -> option U) (mid : T -> T -> U) nanq p cores :
    order_ok ok lt -> nth_elements lt ok nthel ->
    (forall a b, In a src -> In b src -> ok a = true -> ok b = true -> split a b = Some (mid a b)) ->
    0 <= p <= 10 ^ 9 -> Z.of_nat (length src) <= 2 ^ 53 ->
    layout n keys src ncount igroup ifirst -> fair ord -> 0 < cores -> n = Z.of_nat (length out0) ->
    BandedGroupBy ord (xcall (AccumQuantile1e9Mult src igroup ifirst ncount uinv conv ok lt nthel split nanq (q_down p) (q_up p))) cores n out0 =
    GroupByX (xcall (AccumQuantile1e9Mult src igroup ifirst ncount uinv conv ok lt nthel split nanq (q_down p) (q_up p))) 0 n out0.
  Proof.
    intros Hlt Hnth Hsp Hp Hb lay Ho Hc Hn. eapply (band_call) with (P := quantile_spec uinv conv lt ok mid nanq (q_down p) (q_up p)); eauto.
    intros l Hi Hle. apply quantile_ok; auto. intros k Hk. destruct (q_bounds p k Hp ltac:(lia) ltac:(lia)) as (A & B & C). lia.
  Qed.
  Lemma final_band_trimmean {D} (le : T -> T -> bool) (nthel : list T -> nat -> list T) ntrim (zero : D) add cast cores :
    order_ok ok lt -> le_ok ok lt le -> nth_elements lt ok nthel -> (forall d x y, add (add d x) y = add (add d y) x) ->
    (forall n, (0 < n)%nat -> (0 < ntrim n)%nat) ->
    layout n keys src ncount igroup ifirst -> fair ord -> 0 < cores -> n = Z.of_nat (length out0) ->
    BandedGroupBy ord (xcall (AccumTrimMeanBR src igroup ifirst ncount uinv ok le nthel ntrim zero add cast)) cores n out0 =
    GroupByX (xcall (AccumTrimMeanBR src igroup ifirst ncount uinv ok le nthel ntrim zero add cast)) 0 n out0.
  Proof.
    intros Hlt Hle Hnth Hadd Ht lay Ho Hc Hn. eapply (band_call) with (P := trimmean_spec uinv lt le ok ntrim zero add cast); eauto.
    intros l Hi _. apply trimmean_ok; auto.
  Qed.
End Final.

Lemma mode_int_refuted : exists keys src ncount igroup ifirst res, layout 2 keys src ncount igroup ifirst /\
  GroupByAllPack32 (fun _ l => l) false true 1 3 (xcall (AccumMode src igroup ifirst ncount (- 2 ^ 31) (fun x => x)
     (quick (compare_lt Z.ltb (fun _ => true))) Z.eqb)) 0 2 2 [0; 0] = Some res /\
  ~ reduced (mode_spec (- 2 ^ 31) (fun x => x) Z.ltb Z.eqb ok32) 0 2 (combine keys src) res.
Proof.
  exists (one_keys 3), [- 2 ^ 31; - 2 ^ 31; 7], [0; 3], (one_rows 3), [0; 0], [- 2 ^ 31; - 2 ^ 31].
  split; [apply (one_layout [- 2 ^ 31; - 2 ^ 31; 7] 3); reflexivity|]. split; [vm_compute; reflexivity|].
  intros H. destruct (H 1 ltac:(lia)) as (r & E & Hr). vm_compute in E. injection E as <-.
  unfold mode_spec in Hr. change (filter ok32 _) with [7] in Hr. destruct Hr as (m & E & [<-|[]] & _). discriminate.
Qed.

Lemma quantile_overflow : exists src, GroupByAllPack32 (fun _ l => l) false true 1 2 (xcall (AccumQuantile1e9Mult src (one_rows 2) [0; 0] [0; 2] (-1) (fun x => 2 * x)
     (fun _ => true) Z.ltb (fun l _ => isort Z.ltb l) (QUANTILE_SPLIT2_signed 64) false (q_down 500000000) (q_up 500000000))) 0 2 2 [0; 0] = None.
Proof. exists [2 ^ 63 - 1; 2 ^ 63 - 1]. vm_compute. reflexivity. Qed.

Lemma f_add_swap d x y : fadd (fadd d x) y = fadd (fadd d y) x.
Proof. destruct d, x, y; simpl; auto. f_equal. lia. Qed.

Lemma rolling_negative {T U : Type} w n keys (src : list T) ncount igroup ifirst (uinv : U) (conv : T -> U) (zero : U) add sub win low high (out0 : list U) :
  layout n keys src ncount igroup ifirst -> 0 < n -> 0 <= low -> length out0 = length keys -> win < 0 ->
  exists res, GroupByX (AccumRollingSum w src igroup ifirst ncount uinv conv zero add sub win) low high out0 = Some res /\
    length res = length out0 /\ forall g k r, nth_error (rows_with keys g) k = Some r ->
      nth_error res (Z.to_nat r) = if (low =? 0) && (g =? 0) then Some uinv else nth_error out0 (Z.to_nat r).
Proof.
  intros lay Hn Hl Lo Hw. unfold AccumRollingSum. replace (win <? 0) with true by (symmetry; apply Z.ltb_lt; lia).
  eapply roll_call_early; eauto.
Qed.

Lemma shift_window_overflow : exists (src : list Z), layout 4 ex_keys src ex_ncount ex_igroup ex_ifirst /\
  GroupByX (AccumRollingShift 32 src ex_igroup ex_ifirst ex_ncount 0 (fun x => x) (2 ^ 31 - 1)) 0 4 (repeat 0 6) = None.
Proof.
  exists [1; 1; 1; 1; 1; 1]. split; [apply ex_layout; reflexivity|].
  unfold GroupByX, AccumRollingShift, roll_call. change (0 =? 0) with true. cbv iota.
  assert (M : mark_invalid ex_igroup ex_ifirst ex_ncount 0 0 = Some [(1, 0)]) by (vm_compute; reflexivity). rewrite M.
  unfold xcall. change (Z.to_nat (4 - 1)) with 3%nat. cbn [bin_loop].
  assert (N : roll_shift 32 [1; 1; 1; 1; 1; 1] ex_igroup ex_ifirst ex_ncount 0 (fun x => x) (2 ^ 31 - 1) 1 = None).
  { unfold roll_shift, roll_pair. change (0 <=? 2 ^ 31 - 1) with true. cbv iota.
    unfold two_loops. change (zrd ex_ifirst 1) with (Some 1). change (zrd ex_ncount 1) with (Some 3). cbv iota beta zeta.
    match goal with |- match ?e with _ => _ end = None => destruct e as [[ws s]|] end; [|reflexivity].
    rewrite roll_oob; [reflexivity| |reflexivity]. change (wrap 32 (1 + (2 ^ 31 - 1))) with (- 2 ^ 31). lia. }
  now rewrite N.
Qed.
