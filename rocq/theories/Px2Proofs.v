(** Rolling sums and trimmed means whose additions do not round. *)
From Verif Require Import Base Mem MemLemmas GroupModel GroupSpec GroupProofs AccumSpec GrpxModel GrpxSpec GrpxProofs Grpx2Proofs Grpx3Proofs Grpx4Proofs AllModel AllSpec HeapModel HeapSpec PxModel PxSpec PxProofs.
Local Open Scope Z_scope.

(** ** Sums of whole numbers *)
Section Exact.
  Context {T U : Type} (conv : T -> U) (zero : U) (add sub : U -> U -> U) (e : Z -> U) (zc : T -> Z) (M B : Z) (n : nat).
  Definition ztot (l : list T) : Z := fold_right (fun x s => zc x + s) 0 l.
  Definition exact_on (l : list T) : Prop := forall x, In x l -> conv x = e (zc x) /\ Z.abs (zc x) <= M.
  Hypothesis E0 : zero = e 0.
  Hypothesis Hn : Z.of_nat n * M <= B.
  Hypothesis M0 : 0 <= M.
  Hypothesis EA : forall a b, Z.abs a <= B -> Z.abs b <= B -> add (e a) (e b) = e (a + b).
  Hypothesis ES : forall a b, Z.abs a <= B -> Z.abs b <= B -> sub (e a) (e b) = e (a - b).

  Lemma ztot_app a b : ztot (a ++ b) = ztot a + ztot b.
  Proof. clear. induction a as [|x a IH]; cbn; [reflexivity|]. unfold ztot in IH. rewrite IH. unfold ztot. lia. Qed.
  Lemma ztot_bound l : exact_on l -> Z.abs (ztot l) <= Z.of_nat (length l) * M.
  Proof.
    clear - M0. induction l as [|x l IH]; intros H; [cbn; lia|]. cbn [ztot fold_right length]. fold (ztot l). destruct (H x (or_introl eq_refl)) as [_ Hx].
    specialize (IH (fun y Hy => H y (or_intror Hy))). rewrite Nat2Z.inj_succ, Z.mul_succ_l. lia.
  Qed.
  Lemma ztot_small l : exact_on l -> (length l <= n)%nat -> Z.abs (ztot l) <= B.
  Proof. clear - M0 Hn. intros H L. pose proof (ztot_bound l H). assert (Z.of_nat (length l) * M <= Z.of_nat n * M) by (apply Z.mul_le_mono_nonneg_r; lia). lia. Qed.
  Lemma one_small l x : exact_on l -> In x l -> (length l <= n)%nat -> Z.abs (zc x) <= B.
  Proof.
    clear - M0 Hn. intros H Hi L. destruct (H x Hi) as [_ Hx]. assert (1 * M <= Z.of_nat n * M); [|lia]. apply Z.mul_le_mono_nonneg_r; auto.
    destruct l; [destruct Hi|cbn in L; lia].
  Qed.
  Lemma exact_sub_list l l' : exact_on l -> incl l' l -> exact_on l'.
  Proof. clear. intros H I x Hx. apply H, I, Hx. Qed.
  Lemma total_exact l : exact_on l -> (length l <= n)%nat -> total zero conv add l = e (ztot l).
  Proof.
    clear ES. induction l as [|x l IH] using rev_ind; intros H L; [cbn; auto|].
    rewrite app_length in L. cbn [length] in L. unfold total. rewrite fold_left_app. cbn [fold_left]. fold (total zero conv add l).
    assert (Hl : exact_on l) by (eapply exact_sub_list; [exact H|]; intros y Hy; apply in_or_app; auto).
    rewrite IH by (auto; lia). destruct (H x) as [-> Hx]; [apply in_or_app; right; now left|].
    rewrite EA; [rewrite ztot_app; cbn; f_equal; lia| |].
    - apply ztot_small; auto. lia.
    - eapply one_small; [exact H|apply in_or_app; right; now left|rewrite app_length; cbn; lia].
  Qed.
  Lemma step_total l x : exact_on (l ++ [x]) -> (length l < n)%nat -> add (total zero conv add l) (conv x) = total zero conv add (l ++ [x]).
  Proof. clear. intros _ _. unfold total. now rewrite fold_left_app. Qed.
  Lemma drop_total l y : exact_on (y :: l) -> (S (length l) <= n)%nat -> sub (total zero conv add (y :: l)) (conv y) = total zero conv add l.
  Proof.
    intros H L. assert (Hl : exact_on l) by (eapply exact_sub_list; [exact H|]; intros z Hz; now right).
    rewrite (total_exact (y :: l)), (total_exact l) by (auto; cbn [length]; lia). destruct (H y (or_introl eq_refl)) as [-> _].
    rewrite ES; [cbn [ztot fold_right]; fold (ztot l); f_equal; lia| |].
    - apply ztot_small; auto.
    - eapply one_small; [exact H|now left|cbn; lia].
  Qed.
End Exact.

Section Roll.
  Context {T U : Type} (w n : Z) (keys : list Z) (src : list T) (ncount igroup ifirst : list Z) (uinv : U) (conv : T -> U).
  Hypothesis lay : layout n keys src ncount igroup ifirst.
  Notation rows g := (rows_with keys g).
  Notation vals g := (group_vals (combine keys src) g).
  Context (zero : U) (add sub : U -> U -> U) (div : U -> Z -> U) (ok : T -> bool) (win : Z).
  Context (e : Z -> U) (zc : T -> Z) (M B : Z).
  Hypothesis E0 : zero = e 0.
  Hypothesis Hn : Z.of_nat (S (length src)) * M <= B.
  Hypothesis M0 : 0 <= M.
  Hypothesis EA : forall a b, Z.abs a <= B -> Z.abs b <= B -> add (e a) (e b) = e (a + b).
  Hypothesis ES : forall a b, Z.abs a <= B -> Z.abs b <= B -> sub (e a) (e b) = e (a - b).
  Hypothesis EX : exact_on conv e zc M (filter ok src).
  Hypothesis Hw : 0 < w.
  Hypothesis Hwin : 0 <= win.
  Hypothesis Hb : Z.of_nat (length keys) + win < 2 ^ (w - 1).

  Lemma sub_incl k (l : list T) : incl (wbefore win k l) l.
  Proof. intros x Hx. unfold wbefore in Hx. rewrite <- (firstn_skipn k l). apply in_or_app. left. rewrite <- (firstn_skipn (k - Z.to_nat win) (firstn k l)). apply in_or_app. now right. Qed.
  Lemma window_exact g k : exact_on conv e zc M (filter ok (wbefore win k (vals g))).
  Proof. eapply exact_sub_list; [exact EX|]. intros x Hx. apply filter_In in Hx as [Hx Ho]. apply filter_In. split; auto. apply (vals_in keys src g). now apply (sub_incl k). Qed.
  Lemma window_len g k : (length (filter ok (wbefore win k (vals g))) <= length src)%nat.
  Proof.
    transitivity (length (wbefore win k (vals g))); [induction (wbefore win k (vals g)) as [|a l IH]; cbn; [lia|destruct (ok a); cbn; lia]|].
    unfold wbefore. rewrite skipn_length, firstn_length. pose proof (vals_le keys src g). lia.
  Qed.
  Lemma grow g k x : nth_error (vals g) k = Some x -> Z.of_nat k < win ->
    add_ok conv add ok (total zero conv add (filter ok (wbefore win k (vals g)))) x = total zero conv add (filter ok (wbefore win (S k) (vals g))).
  Proof.
    intros Ex H. rewrite (wbefore_grow conv uinv div ok win k _ x Ex H), filter_app. cbn [filter]. unfold add_ok.
    destruct (ok x); [unfold total; now rewrite fold_left_app|now rewrite app_nil_r].
  Qed.
  Lemma slide g k x y : nth_error (vals g) k = Some x -> 0 <= win <= Z.of_nat k -> nth_error (vals g) (k - Z.to_nat win) = Some y ->
    sub_ok conv sub ok (add_ok conv add ok (total zero conv add (filter ok (wbefore win k (vals g)))) x) y = total zero conv add (filter ok (wbefore win (S k) (vals g))).
  Proof.
    intros Ex H Ey. destruct (wbefore_slide conv uinv div ok win k _ x Ex H) as (y' & Ey' & E). assert (y' = y) by congruence. subst y'.
    assert (A : add_ok conv add ok (total zero conv add (filter ok (wbefore win k (vals g)))) x = total zero conv add (filter ok (wbefore win k (vals g) ++ [x]))).
    { rewrite filter_app. cbn [filter]. unfold add_ok. destruct (ok x); [unfold total; now rewrite fold_left_app|now rewrite app_nil_r]. }
    rewrite A, E. cbn [filter]. unfold sub_ok. destruct (ok y) eqn:Oy; auto.
    apply (drop_total conv zero add sub e zc M B (S (length src))); auto.
    - intros z [<- | Hz]; [|now apply (window_exact g (S k))]. apply EX. apply filter_In. split; auto. apply (vals_in keys src g). eapply nth_error_In; eauto.
    - pose proof (window_len g (S k)). lia.
  Qed.
  Lemma slide_cnt g k x y : nth_error (vals g) k = Some x -> 0 <= win <= Z.of_nat k -> nth_error (vals g) (k - Z.to_nat win) = Some y ->
    Z.of_nat (length (filter ok (wbefore win k (vals g)))) + count_ok ok x - count_ok ok y = Z.of_nat (length (filter ok (wbefore win (S k) (vals g)))).
  Proof.
    intros Ex H Ey. destruct (wbefore_slide conv uinv div ok win k _ x Ex H) as (y' & Ey' & E). assert (y' = y) by congruence. subst y'.
    assert (A : length (filter ok (wbefore win k (vals g) ++ [x])) = length (filter ok (y :: wbefore win (S k) (vals g)))) by now rewrite E.
    rewrite filter_app, app_length in A. cbn [filter] in A. unfold count_ok. destruct (ok x), (ok y); cbn [length] in A; lia.
  Qed.

  Lemma exact_nansum g : 0 < g < n -> exists ws, roll_nansum w src igroup ifirst ncount conv zero add sub ok win g = Some ws /\
    row_ok keys (rnansum_spec conv zero add ok win (vals g)) g ws.
  Proof.
    intros Hg. unfold roll_nansum.
    apply (two_loops_ok w n keys src ncount igroup ifirst lay win _ _ zero (fun k s => s = total zero conv add (filter ok (wbefore win k (vals g))))); auto.
    - intros f k s Hs Hk Hlt ->. destruct (src_one n keys src ncount igroup ifirst lay uinv div g f k Hs Hk) as (x & -> & Ex). eexists _, _. split; [reflexivity|].
      rewrite (grow g k x Ex Hlt). split; auto. unfold rnansum_spec. now rewrite (wbefore_window uinv div).
    - intros f k s Hs Hk Hge ->. destruct (src_pair n keys src ncount igroup ifirst conv lay uinv div ok g f k win Hs Hk ltac:(lia)) as (x & y & -> & Ex & -> & Ey). eexists _, _. split; [reflexivity|].
      rewrite (slide g k x y Ex ltac:(lia) Ey). split; auto. unfold rnansum_spec. now rewrite (wbefore_window uinv div).
  Qed.
  Lemma exact_nanmean g : 0 < g < n -> exists ws, roll_nanmean w src igroup ifirst ncount uinv conv zero add sub div ok win g = Some ws /\
    row_ok keys (rnanmean_spec uinv conv zero add div ok win (vals g)) g ws.
  Proof.
    intros Hg. unfold roll_nanmean.
    apply (two_loops_ok w n keys src ncount igroup ifirst lay win _ _ (zero, 0)
      (fun k s => s = (total zero conv add (filter ok (wbefore win k (vals g))), Z.of_nat (length (filter ok (wbefore win k (vals g))))))); auto.
    - intros f k s Hs Hk Hlt ->. cbn [fst snd]. destruct (src_one n keys src ncount igroup ifirst lay uinv div g f k Hs Hk) as (x & -> & Ex). eexists _, _. split; [reflexivity|].
      rewrite (grow g k x Ex Hlt).
      assert (C : Z.of_nat (length (filter ok (wbefore win k (vals g)))) + count_ok ok x = Z.of_nat (length (filter ok (wbefore win (S k) (vals g))))).
      { rewrite (wbefore_grow conv uinv div ok win k _ x Ex Hlt), filter_app, app_length. cbn [filter]. unfold count_ok. destruct (ok x); cbn [length]; lia. }
      rewrite C. split; auto. unfold rnanmean_spec. rewrite <- (wbefore_window uinv div). apply mean_or_spec.
    - intros f k s Hs Hk Hge ->. cbn [fst snd]. destruct (src_pair n keys src ncount igroup ifirst conv lay uinv div ok g f k win Hs Hk ltac:(lia)) as (x & y & -> & Ex & -> & Ey). eexists _, _. split; [reflexivity|].
      rewrite (slide g k x y Ex ltac:(lia) Ey), (slide_cnt g k x y Ex ltac:(lia) Ey). split; auto. unfold rnanmean_spec. rewrite <- (wbefore_window uinv div). apply mean_or_spec.
  Qed.
  Lemma exact_mean g : (forall x, ok x = true) -> 0 < g < n -> exists ws, roll_mean w src igroup ifirst ncount conv zero add sub div win g = Some ws /\
    row_ok keys (rmean_spec conv zero add div win (vals g)) g ws.
  Proof.
    intros OK Hg. unfold roll_mean.
    assert (FA : forall l, filter ok l = l) by (clear - OK; induction l as [|x l IH]; cbn; [auto|rewrite OK; now f_equal]).
    apply (two_loops_ok w n keys src ncount igroup ifirst lay win _ _ zero (fun k s => s = total zero conv add (wbefore win k (vals g)))); auto.
    - intros f k s Hs Hk Hlt ->. destruct (src_one n keys src ncount igroup ifirst lay uinv div g f k Hs Hk) as (x & -> & Ex). eexists _, _. split; [reflexivity|].
      pose proof (grow g k x Ex Hlt) as G. unfold add_ok in G. rewrite OK, !FA in G. rewrite G. split; auto. unfold rmean_spec. rewrite (wbefore_window uinv div).
      rewrite (wlen win k _ x Ex). f_equal. lia.
    - intros f k s Hs Hk Hge ->. destruct (src_pair n keys src ncount igroup ifirst conv lay uinv div ok g f k win Hs Hk ltac:(lia)) as (x & y & -> & Ex & -> & Ey). eexists _, _. split; [reflexivity|].
      pose proof (slide g k x y Ex ltac:(lia) Ey) as G. unfold add_ok, sub_ok in G. rewrite !OK, !FA in G. rewrite G. split; auto. unfold rmean_spec. rewrite (wbefore_window uinv div).
      rewrite (wlen win k _ x Ex). f_equal. lia.
  Qed.
End Roll.

Section Trim.
  Context {T U : Type} (lt : T -> T -> bool) (ok : T -> bool) (uinv : U) (nthel : list T -> nat -> list T).
  Hypothesis Hlt : order_ok ok lt.
  Hypothesis Hnth : nth_elements lt ok nthel.
  Lemma trimmean_exact {D} (le : T -> T -> bool) ntrim (zero : D) add cast l :
    le_ok ok lt le -> (forall k k', Permutation k k' -> incl k (filter ok l) -> (length k <= length l)%nat -> fold_left add k zero = fold_left add k' zero) -> (forall n, (0 < n)%nat -> (0 < ntrim n)%nat) ->
    exists r, trimmean_of uinv ok le nthel ntrim zero add cast l = Some r /\ trimmean_spec uinv lt le ok ntrim zero add cast l r.
  Proof.
    intros Hle Hadd Ht. destruct (strip_nans_split lt ok (fun _ : T => uinv) nthel l) as (x & n & E & P & En). unfold trimmean_of, trimmean_spec. rewrite E, En.
    assert (Ov : forall x, In x (filter ok l) -> ok x = true) by (intros y Hy; now apply filter_In in Hy as [_ Hy]).
    rewrite En in P. set (v := filter ok l) in *.
    destruct (Nat.eqb_spec (length v) 0) as [Hz|Hz]; [rewrite Hz in *; simpl; eauto|].
    destruct (Nat.leb_spec (length v) (2 * ntrim (length v))) as [Hn|Hn]; [eauto|].
    specialize (Ht (length v) ltac:(lia)). set (t := ntrim (length v)) in *. set (y := firstn (length v) x) in *.
    pose proof (Permutation_length P) as Ly.
    assert (Oy : forall z, In z y -> ok z = true) by (intros z Hz'; apply Ov; eapply Permutation_in; [symmetry; exact P|exact Hz']).
    destruct (nthel_stat lt ok Hlt nthel Hnth y (t - 1) ltac:(lia) Oy) as (P1 & lb & El & Sl).
    set (p1 := nthel y (t - 1)) in *. pose proof (Permutation_length P1) as L1.
    assert (O1 : forall z, In z p1 -> ok z = true) by (intros z Hz'; apply Oy; eapply Permutation_in; [symmetry; exact P1|exact Hz']).
    destruct (nthel_stat lt ok Hlt nthel Hnth p1 (length v - t) ltac:(lia) O1) as (P2 & ub & Eu & Su).
    set (p2 := nthel p1 (length v - t)) in *. rewrite El, Eu.
    assert (Pv2 : Permutation v p2) by (now rewrite P, P1).
    assert (Sl' : order_stat lt v (t - 1) lb) by (destruct Sl as (s & Hs & H); exists s; split; auto; apply (sorted_of_perm lt _ _ _ P Hs)).
    assert (Su' : order_stat lt v (length v - t) ub).
    { destruct Su as (s & Hs & H). exists s. split; auto. apply (sorted_of_perm lt _ p1 s); [now rewrite P|exact Hs]. }
    assert (Hlu : lt ub lb = false) by (eapply (stat_le lt ok Hlt nthel) with (l := v) (i := (t - 1)%nat) (j := (length v - t)%nat); eauto; lia).
    assert (Olb : ok lb = true) by (apply O1; eapply nth_error_In; eauto).
    assert (Oub : ok ub = true) by (apply O1; eapply Permutation_in; [symmetry; exact P2|eapply nth_error_In; eauto]).
    rewrite (Hle lb ub), Hlu by auto. cbn [negb]. eexists. split; [reflexivity|].
    exists lb, ub. split; auto. split; auto.
    set (f := fun y => le lb y && le y ub).
    assert (Pk : Permutation (filter f p2) (filter f v)) by (apply filter_perm; now symmetry).
    assert (Hne : filter f p2 <> []).
    { assert (Hin : In lb (filter f p2)); [|intros Hn'; rewrite Hn' in Hin; destruct Hin].
      apply filter_In. split; [eapply Permutation_in; [exact P2|eapply nth_error_In; eauto]|].
      unfold f. rewrite !Hle, Hlu by auto. destruct Hlt as (I & _ & _). now rewrite I. }
    destruct (filter f p2) as [|k0 ks] eqn:Ek; [congruence|]. rewrite <- Ek in *.
    rewrite (Hadd _ _ Pk), (Permutation_length Pk); [reflexivity| |].
    - intros z Hz'. apply (Permutation_in _ Pk) in Hz'. now apply filter_In in Hz' as [Hz' _].
    - assert (N : forall (g : T -> bool) l0, (length (filter g l0) <= length l0)%nat) by (intros g l0; induction l0 as [|z l0 IH]; cbn; [lia|destruct (g z); cbn; lia]).
      rewrite (Permutation_length Pk). transitivity (length v); [apply N|]. apply N.
  Qed.
End Trim.

Lemma ztot_perm {T} (zc : T -> Z) l l' : Permutation l l' -> ztot zc l = ztot zc l'.
Proof. induction 1; cbn [ztot fold_right] in *; unfold ztot in *; cbn [fold_right]; lia. Qed.

Section TrimSum.
  Context {F : Type} (A : arith F).
  Lemma trim_total k z : R (fold_left (trim_add A) k z) = total (R z) (x_conv A (XNum (CF 8))) (x_add A (XNum (CF 8))) k.
  Proof. unfold total. revert z. induction k as [|x k IH]; intros z; cbn [fold_left]; [reflexivity|]. rewrite IH. reflexivity. Qed.
  Lemma trim_perm n vals k k' : exact_sums (x_conv A (XNum (CF 8))) (R (fzero A (CF 8))) (x_add A (XNum (CF 8))) (x_sub A (XNum (CF 8))) n vals ->
    Permutation k k' -> incl k vals -> (length k <= n)%nat -> fold_left (trim_add A) k (fzero A (CF 8)) = fold_left (trim_add A) k' (fzero A (CF 8)).
  Proof.
    intros (e & zc & M & B & E0 & Hn & M0 & HV & EA & ES) P I L.
    assert (E : R (fold_left (trim_add A) k (fzero A (CF 8))) = R (fold_left (trim_add A) k' (fzero A (CF 8)))); [|congruence].
    rewrite !trim_total. rewrite !(total_exact (x_conv A (XNum (CF 8))) (R (fzero A (CF 8))) (x_add A (XNum (CF 8))) (x_sub A (XNum (CF 8))) e zc M B n); auto.
    - now rewrite (ztot_perm zc _ _ P).
    - intros x Hx. apply HV, I. eapply Permutation_in; [symmetry; exact P|exact Hx].
    - now rewrite <- (Permutation_length P).
    - intros x Hx. apply HV, I, Hx.
  Qed.
End TrimSum.
