(** Rolling windows of one array: proofs. *)
From Coq Require Import List ZArith Lia Bool QArith QArith.Qcanon Field.
From Verif Require Import Base GrpxModel AccumSpec GrpxSpec Grpx3Proofs RollModel RollSpec.
From Verif Require Accum5Proofs Grpx4Proofs.
Import ListNotations.
Local Open Scope Z_scope.

(** ** The loops *)
Section Loop.
  Context {T U S : Type} (prime : Z -> T -> S -> S * U) (slide : T -> T -> S -> S * U).
  Context (win : Z) (l : list T) (I : nat -> S -> Prop) (P : nat -> U -> Prop).
  Hypothesis Hprime : forall k x s, Z.of_nat k < win -> nth_error l k = Some x -> I k s -> let '(s', u) := prime (Z.of_nat k) x s in I (Datatypes.S k) s' /\ P k u.
  Hypothesis Hslide : forall k x y s, 0 <= win <= Z.of_nat k -> nth_error l k = Some x -> nth_error l (k - Z.to_nat win) = Some y -> I k s -> let '(s', u) := slide x y s in I (Datatypes.S k) s' /\ P k u.

  Lemma prime_loop_ok r : forall k s, I k s -> (forall j x, nth_error r j = Some x -> nth_error l (k + j) = Some x /\ Z.of_nat (k + j) < win) ->
    let '(us, s') := prime_loop prime (Z.of_nat k) r s in
    length us = length r /\ I (k + length r)%nat s' /\ forall j u, nth_error us j = Some u -> P (k + j) u.
  Proof.
    induction r as [| x r IH]; intros k s HI HR; cbn [prime_loop].
    - cbn. rewrite Nat.add_0_r. repeat split; auto. intros [| j] u E; discriminate.
    - destruct (HR 0%nat x eq_refl) as [E L]. rewrite Nat.add_0_r in E, L. pose proof (Hprime k x s L E HI) as HP. destruct (prime (Z.of_nat k) x s) as [s' u]. destruct HP as [HI' HU].
      replace (Z.of_nat k + 1) with (Z.of_nat (Datatypes.S k)) by lia.
      specialize (IH (Datatypes.S k) s' HI'). destruct (prime_loop prime (Z.of_nat (Datatypes.S k)) r s') as [us s''].
      destruct IH as (L1 & I1 & P1).
      { intros j y Ej. rewrite Nat.add_succ_l, <- Nat.add_succ_r. now apply HR. }
      cbn [length]. rewrite L1. rewrite Nat.add_succ_r, <- Nat.add_succ_l. repeat split; auto.
      intros [| j] u' E'; cbn in E'.
      + inversion E'; subst. now rewrite Nat.add_0_r.
      + rewrite Nat.add_succ_r, <- Nat.add_succ_l. auto.
  Qed.
  Lemma slide_loop_ok r : forall k s, I k s -> 0 <= win <= Z.of_nat k -> (forall j x y, nth_error r j = Some (x, y) -> nth_error l (k + j) = Some x /\ nth_error l (k + j - Z.to_nat win) = Some y) ->
    length (slide_loop slide r s) = length r /\ forall j u, nth_error (slide_loop slide r s) j = Some u -> P (k + j) u.
  Proof.
    induction r as [| [x y] r IH]; intros k s HI HW HR; cbn [slide_loop].
    - split; auto. intros [| j] u E; discriminate.
    - destruct (HR 0%nat x y eq_refl) as [E1 E2]. rewrite Nat.add_0_r in E1, E2. pose proof (Hslide k x y s HW E1 E2 HI) as HP. destruct (slide x y s) as [s' u]. destruct HP as [HI' HU].
      destruct (IH (Datatypes.S k) s' HI' ltac:(lia)) as [L1 P1].
      { intros j a b Ej. rewrite Nat.add_succ_l, <- Nat.add_succ_r. now apply HR. }
      cbn [length]. rewrite L1. split; auto. intros [| j] u' E'; cbn in E'.
      + inversion E'; subst. now rewrite Nat.add_0_r.
      + rewrite Nat.add_succ_r, <- Nat.add_succ_l. auto.
  Qed.
  Lemma nth_error_combine {A B} (a : list A) : forall (b : list B) j x y, nth_error (combine a b) j = Some (x, y) -> nth_error a j = Some x /\ nth_error b j = Some y.
  Proof. induction a as [| p a IH]; intros [| q b] [| j] x y E; cbn in E; try discriminate; [inversion E; auto | exact (IH b j x y E)]. Qed.
  Lemma roll_ok s : I 0%nat s -> 0 <= win -> exists res, roll prime slide win l s = Some res /\ rolled P l res.
  Proof.
    intros HI HW. unfold roll. destruct (Z.ltb_spec win 0); [lia |]. set (n := Z.to_nat win).
    pose proof (prime_loop_ok (firstn n l) 0 s HI) as HP. cbn [Z.of_nat] in HP. destruct (prime_loop prime 0 (firstn n l) s) as [us s'].
    destruct HP as (L1 & I1 & P1).
    { intros j x E. rewrite nth_error_firstn in E. destruct (Nat.ltb_spec j n); [| discriminate]. split; auto. unfold n in *. lia. }
    eexists; split; [reflexivity |].
    rewrite Nat.add_0_l, firstn_length in I1. destruct (Nat.le_gt_cases (length l) n) as [Q | Q].
    - rewrite (skipn_all2 l Q). cbn [combine slide_loop]. rewrite app_nil_r. split; [rewrite L1, firstn_length; lia | exact P1].
    - rewrite Nat.min_l in I1 by lia.
      destruct (slide_loop_ok (combine (skipn n l) l) n s' I1 ltac:(lia)) as [L2 P2].
      { intros j x y E. apply nth_error_combine in E. destruct E as [E1 E2]. rewrite nth_error_skipn in E1. split; auto. fold n. now replace (n + j - n)%nat with j by lia. }
      rewrite firstn_length, Nat.min_l in L1 by lia. split.
      + rewrite app_length, L1, L2, combine_length, skipn_length. lia.
      + intros k u E. destruct (Nat.lt_ge_cases k n) as [W | W].
        * rewrite nth_error_app1 in E by lia. exact (P1 k u E).
        * rewrite nth_error_app2 in E by lia. rewrite L1 in E. replace k with (n + (k - n))%nat by lia. now apply P2.
  Qed.
End Loop.

(** ** Windows *)
Lemma wgrow {T} win k (l : list T) x : nth_error l k = Some x -> Z.of_nat k < win -> wbefore win (S k) l = wbefore win k l ++ [x].
Proof. exact (wbefore_grow (fun a => a) x (fun a _ => a) (fun _ => true) win k l x). Qed.
Lemma wslide {T} win k (l : list T) x : nth_error l k = Some x -> 0 <= win <= Z.of_nat k ->
  exists y, nth_error l (k - Z.to_nat win) = Some y /\ wbefore win k l ++ [x] = y :: wbefore win (S k) l.
Proof. exact (wbefore_slide (fun a => a) x (fun a _ => a) (fun _ => true) win k l x). Qed.
Lemma wwindow {T} win k (l : list T) : wbefore win (S k) l = window win k l.
Proof. unfold wbefore, window. now replace (k + 1)%nat with (S k) by lia. Qed.
Lemma wlength {T} win k (l : list T) x : nth_error l k = Some x -> length (window win k l) = Nat.min (S k) (Z.to_nat win).
Proof. intros E. apply nth_error_Some_lt in E. unfold window. rewrite skipn_length, firstn_length. lia. Qed.
Lemma wnil {T} win (l : list T) : wbefore win 0 l = [].
Proof. unfold wbefore. rewrite firstn_O. apply skipn_nil. Qed.

(** ** Sums and means *)
Section Sums.
  Context {T U : Type} (conv : T -> U) (zero : U) (add sub : U -> U -> U) (div : U -> Z -> U) (ok : T -> bool).
  Hypothesis Hadd : exact_add zero add.
  Hypothesis Hsub : exact_sub add sub.
  Lemma sum_ok win l : 0 <= win -> exists res, RollingSum conv zero add sub win l = Some res /\ rolled (rsum_spec conv zero add win l) l res.
  Proof.
    intros W. unfold RollingSum. apply roll_ok with (I := fun k s => s = total zero conv add (wbefore win k l)); auto; cbn beta zeta.
    - intros k x s L E ->. unfold rsum_spec. rewrite <- wwindow, (wgrow win k l x E L), total_snoc. auto.
    - intros k x y s L E Ey ->. unfold rsum_spec. rewrite <- wwindow. rewrite (slide_total conv zero add sub div ok Hadd Hsub win k l x y E L Ey). auto.
  Qed.
  Lemma grow_filter win k l x : nth_error l k = Some x -> Z.of_nat k < win ->
    add_ok conv add ok (total zero conv add (filter ok (wbefore win k l))) x = total zero conv add (filter ok (wbefore win (S k) l)).
  Proof. intros E L. rewrite (wgrow win k l x E L), filter_app. cbn [filter]. unfold add_ok. destruct (ok x); [now rewrite total_snoc | now rewrite app_nil_r]. Qed.
  Lemma nansum_ok win l : 0 <= win -> exists res, RollingNanSum conv zero add sub ok win l = Some res /\ rolled (rnansum_spec conv zero add ok win l) l res.
  Proof.
    intros W. unfold RollingNanSum. apply roll_ok with (I := fun k s => s = total zero conv add (filter ok (wbefore win k l))); auto; cbn beta zeta.
    - intros k x s L E ->. unfold rnansum_spec. rewrite <- wwindow, (grow_filter win k l x E L). auto.
    - intros k x y s L E Ey ->. unfold rnansum_spec. rewrite <- wwindow. rewrite (slide_total_ok conv zero add sub div ok Hadd Hsub win k l x y E L Ey). auto.
  Qed.
  Lemma mean_ok win l : 0 <= win -> exists res, RollingMean conv zero add sub div win l = Some res /\ rolled (rmean_spec conv zero add div win l) l res.
  Proof.
    intros W. unfold RollingMean. apply roll_ok with (I := fun k s => s = total zero conv add (wbefore win k l)); auto; cbn beta zeta.
    - intros k x s L E ->. unfold rmean_spec. rewrite (wlength win k l x E). rewrite <- wwindow, (wgrow win k l x E L), total_snoc. split; auto. f_equal. lia.
    - intros k x y s L E Ey ->. unfold rmean_spec. rewrite (wlength win k l x E). rewrite <- wwindow, (slide_total conv zero add sub div ok Hadd Hsub win k l x y E L Ey). split; auto. f_equal. lia.
  Qed.
  Lemma nanmean_ok win l : 0 <= win -> exists res, RollingNanMean conv zero add sub div ok win l = Some res /\
    rolled (fun k u => u = div (total zero conv add (filter ok (window win k l))) (Z.of_nat (length (filter ok (window win k l))))) l res.
  Proof.
    intros W. unfold RollingNanMean. apply roll_ok with (I := fun k s => s = (total zero conv add (filter ok (wbefore win k l)), Z.of_nat (length (filter ok (wbefore win k l))))); auto; cbn beta zeta.
    - intros k x s L E ->. rewrite <- wwindow, (grow_filter win k l x E L).
      replace (Z.of_nat (length (filter ok (wbefore win k l))) + count_ok ok x) with (Z.of_nat (length (filter ok (wbefore win (S k) l)))); auto.
      rewrite (wgrow win k l x E L), filter_app, app_length. cbn [filter]. unfold count_ok. destruct (ok x); cbn [length]; lia.
    - intros k x y s L E Ey ->. rewrite <- wwindow, (slide_total_ok conv zero add sub div ok Hadd Hsub win k l x y E L Ey), (slide_count conv zero div ok win k l x y E L Ey). auto.
  Qed.
End Sums.

(** ** int64 *)
Section Int64.
  Context {T : Type} (conv : T -> Z) (ok : T -> bool).
  Lemma wrap_slide t a b : sub64 (add64 (wrap64 t) a) b = wrap64 (t + a - b).
  Proof.
    unfold sub64, add64. rewrite Accum5Proofs.wrap64_add. unfold Z.sub. rewrite Accum5Proofs.wrap64_add. reflexivity.
  Qed.
  Lemma sum64_ok win l : 0 <= win -> exists res, RollingSum conv 0 add64 sub64 win l = Some res /\ rolled (fun k u => u = wrap64 (total 0 conv Z.add (window win k l))) l res.
  Proof.
    intros W. destruct Grpx4Proofs.z_exact as [HA HS]. unfold RollingSum. apply roll_ok with (I := fun k s => s = wrap64 (total 0 conv Z.add (wbefore win k l))); auto; cbn beta zeta.
    - intros k x s L E ->. rewrite <- wwindow, (wgrow win k l x E L), total_snoc. unfold add64. rewrite Accum5Proofs.wrap64_add. auto.
    - intros k x y s L E Ey ->. rewrite <- wwindow, wrap_slide. rewrite <- (slide_total conv 0 Z.add Z.sub Z.div ok HA HS win k l x y E L Ey). auto.
  Qed.
  Lemma nansum64_ok win l : 0 <= win -> exists res, RollingNanSum conv 0 add64 sub64 ok win l = Some res /\ rolled (fun k u => u = wrap64 (total 0 conv Z.add (filter ok (window win k l)))) l res.
  Proof.
    intros W. destruct Grpx4Proofs.z_exact as [HA HS]. unfold RollingNanSum. apply roll_ok with (I := fun k s => s = wrap64 (total 0 conv Z.add (filter ok (wbefore win k l)))); auto; cbn beta zeta.
    - intros k x s L E ->. rewrite <- wwindow, <- (grow_filter conv 0 Z.add ok win k l x E L). unfold add_ok. destruct (ok x); auto. unfold add64. rewrite Accum5Proofs.wrap64_add. auto.
    - intros k x y s L E Ey ->. rewrite <- wwindow, <- (slide_total_ok conv 0 Z.add Z.sub Z.div ok HA HS win k l x y E L Ey). unfold add_ok, sub_ok.
      destruct (ok x), (ok y); rewrite ?wrap_slide; auto; unfold add64, sub64, Z.sub; rewrite ?Accum5Proofs.wrap64_add; auto.
  Qed.
End Int64.

(** ** Variances *)
Local Open Scope Qc_scope.
Lemma this_qc a : (this (qc a) == inject_Z a)%Q.
Proof. unfold qc, Q2Qc. cbn [this]. apply Qred_correct. Qed.
Lemma qc_add a b : qc (a + b) = qc a + qc b.
Proof. apply Qc_is_canon. unfold Qcplus, Q2Qc at 1. cbn [this]. rewrite Qred_correct, !this_qc, inject_Z_plus. reflexivity. Qed.
Lemma qc_inj a b : qc a = qc b -> a = b.
Proof. intros E. assert (this (qc a) == this (qc b))%Q as H by now rewrite E. rewrite !this_qc in H. unfold Qeq in H. cbn in H. lia. Qed.
Lemma qc_0 : qc 0 = 0. Proof. now apply Qc_is_canon. Qed.
Lemma qc_1 : qc 1 = 1. Proof. now apply Qc_is_canon. Qed.
Lemma qc_pos n : (n <> 0)%Z -> qc n <> 0.
Proof. intros H E. apply H. apply qc_inj. now rewrite qc_0. Qed.
Lemma nqc_S n : nqc (S n) = nqc n + 1.
Proof. unfold nqc. rewrite Nat2Z.inj_succ, <- Z.add_1_r, qc_add, qc_1. reflexivity. Qed.

Lemma qsum_acc l : forall a, fold_left Qcplus l a = a + qsum l.
Proof.
  unfold qsum. induction l as [| x l IH]; intros a; cbn [fold_left]; [ring |]. rewrite (IH (a + x)), (IH (0 + x)). ring.
Qed.
Lemma qsum_cons x l : qsum (x :: l) = x + qsum l.
Proof. unfold qsum at 1. cbn [fold_left]. rewrite qsum_acc. ring. Qed.
Lemma qsum_app a b : qsum (a ++ b) = qsum a + qsum b.
Proof. induction a as [| x a IH]; cbn [app]; rewrite ?qsum_cons, ?IH; [unfold qsum at 2; cbn; ring | ring]. Qed.
Definition sq (l : list Qc) : Qc := qsum (map (fun x => x * x) l).
Lemma sq_cons x l : sq (x :: l) = x * x + sq l. Proof. unfold sq. cbn [map]. apply qsum_cons. Qed.
Lemma sq_app a b : sq (a ++ b) = sq a + sq b. Proof. unfold sq. rewrite map_app. apply qsum_app. Qed.
Lemma qsum_shift m l : qsum (map (fun x => (x - m) * (x - m)) l) = sq l - (1 + 1) * m * qsum l + nqc (length l) * m * m.
Proof.
  induction l as [| x l IH]; [unfold sq, qsum, nqc; cbn; rewrite qc_0; ring |].
  cbn [map length]. rewrite !qsum_cons, sq_cons, nqc_S, IH. ring.
Qed.
Lemma squares_alt l : l <> [] -> squares l = sq l - qsum l * qsum l / nqc (length l).
Proof.
  intros H. unfold squares. rewrite qsum_shift. unfold mean. assert (N : nqc (length l) <> 0) by (apply qc_pos; destruct l; [congruence | cbn; lia]).
  field. exact N.
Qed.
Lemma squares_nil : squares [] = 0. Proof. reflexivity. Qed.

(* one more item *)
Lemma mean_snoc l x : mean (l ++ [x]) = mean l + (x - mean l) / nqc (S (length l)).
Proof.
  unfold mean. rewrite qsum_app, app_length, Nat.add_1_r. unfold qsum at 2; cbn [fold_left].
  assert (N1 : nqc (S (length l)) <> 0) by (apply qc_pos; lia). rewrite nqc_S in *.
  destruct l as [| y l].
  - unfold qsum. cbn [fold_left length]. unfold Qcdiv. ring.
  - assert (N : nqc (length (y :: l)) <> 0) by (apply qc_pos; cbn; lia). field. auto.
Qed.

Lemma squares_snoc l x : squares (l ++ [x]) = squares l + (x - mean l) * (x - mean (l ++ [x])).
Proof.
  rewrite mean_snoc. destruct l as [| y l].
  - cbn [app]. unfold squares, mean, qsum. cbn [map fold_left length]. unfold nqc. change (Z.of_nat 1) with 1%Z. rewrite qc_1. change (Z.of_nat 0) with 0%Z. unfold Qcdiv. replace (/ 1) with 1 by (apply Qc_is_canon; reflexivity). replace (nqc 1) with 1 by (now apply Qc_is_canon). replace (/ 1) with 1 by (apply Qc_is_canon; reflexivity). ring.
  - set (r := y :: l). assert (R : r <> []) by discriminate. rewrite (squares_alt r R), squares_alt by (intros E; destruct r; discriminate).
    rewrite qsum_app, sq_app, app_length, Nat.add_1_r, nqc_S. unfold mean. rewrite sq_cons, qsum_cons. unfold sq at 2; cbn [map]. unfold qsum at 2 5; cbn [fold_left].
    assert (N : nqc (length r) <> 0) by (apply qc_pos; cbn; lia). assert (N1 : nqc (length r) + 1 <> 0) by (rewrite <- nqc_S; apply qc_pos; lia). 
    unfold qsum; cbn [fold_left]. field. auto.
Qed.

(* the window moves on *)
Lemma move_sums a b x y : a ++ [x] = y :: b -> a <> [] -> length b = length a /\ qsum b = qsum a + x - y /\ sq b = sq a + x * x - y * y.
Proof.
  intros E N. split; [apply (f_equal (@length _)) in E; rewrite app_length in E; cbn in E; lia |].
  pose proof (f_equal qsum E) as E1. pose proof (f_equal sq E) as E2. rewrite qsum_app, qsum_cons in E1. rewrite sq_app, !sq_cons in E2.
  rewrite qsum_cons in E1. change (qsum []) with 0 in E1. change (sq []) with 0 in E2.
  split.
  - replace (qsum b) with (y + qsum b - y) by ring. rewrite <- E1. ring.
  - replace (sq b) with (y * y + sq b - y * y) by ring. rewrite <- E2. ring.
Qed.
Lemma mean_move a b x y : a ++ [x] = y :: b -> a <> [] -> mean b = mean a + (x - y) * (1 / nqc (length a)).
Proof.
  intros E N. destruct (move_sums a b x y E N) as (L & S1 & S2). unfold mean. rewrite L, S1.
  assert (M : nqc (length a) <> 0) by (apply qc_pos; destruct a; [congruence | cbn; lia]). field. exact M.
Qed.
Lemma squares_move a b x y : a ++ [x] = y :: b -> a <> [] -> squares b = squares a + ((x - mean b) + (y - mean a)) * (x - y).
Proof.
  intros E N. rewrite (mean_move a b x y E N). destruct (move_sums a b x y E N) as (L & S1 & S2).
  assert (M : nqc (length a) <> 0) by (apply qc_pos; destruct a; [congruence | cbn; lia]).
  rewrite !squares_alt by (auto; intros ->; destruct a; cbn in L; congruence). rewrite L, S1, S2. unfold mean. field. exact M.
Qed.
Lemma sq_nonneg x : 0 <= x * x.
Proof.
  destruct (Qclt_le_dec x 0) as [H | H].
  - replace (x * x) with ((- x) * (- x)) by ring. replace 0 with (0 * - x) by ring. apply Qcmult_le_compat_r; apply Qclt_le_weak in H; apply Qcopp_le_compat in H; now replace (- 0) with 0 in H by ring.
  - replace 0 with (0 * x) by ring. now apply Qcmult_le_compat_r.
Qed.
Lemma squares_nonneg l : 0 <= squares l.
Proof.
  unfold squares. generalize (mean l). intros m. induction l as [| x l IH]; [apply Qcle_refl |]. cbn [map]. rewrite qsum_cons.
  replace 0 with (0 + 0) by ring. apply Qcplus_le_compat; [apply sq_nonneg | exact IH].
Qed.
Lemma clamp_squares l : clamp (squares l) = squares l.
Proof. unfold clamp. destruct (Qclt_le_dec (squares l) 0) as [H | H]; auto. exfalso. apply (Qclt_not_le _ _ H). apply squares_nonneg. Qed.

Lemma wbefore_len {T} win k (l : list T) x : nth_error l k = Some x -> length (wbefore win k l) = Nat.min k (Z.to_nat win).
Proof. intros E. apply nth_error_Some_lt in E. unfold wbefore. rewrite skipn_length, firstn_length. lia. Qed.
Lemma wbefore_ne {T} win k (l : list T) x : nth_error l k = Some x -> (1 <= win <= Z.of_nat k)%Z -> wbefore win k l <> [].
Proof. intros E H N. pose proof (wbefore_len win k l x E) as L. rewrite N in L. cbn in L. lia. Qed.

Section Vars.
  Context {V : Type} (root : option Qc -> V).
  Lemma var_ok win l : (1 <= win)%Z -> exists res, RollingVar root win l = Some res /\ rolled (var_row root win l) l res.
  Proof.
    intros W. unfold RollingVar. apply roll_ok with (I := fun k s => s = (mean (wbefore win k l), squares (wbefore win k l))); try lia; cbn beta zeta.
    - intros k x s L E ->. pose proof (wgrow win k l x E L) as G. pose proof (wbefore_len win k l x E) as LN.
      rewrite G. split.
      + rewrite squares_snoc, mean_snoc, LN. replace (Nat.min k (Z.to_nat win)) with k by lia. unfold nqc. replace (Z.of_nat (S k)) with (Z.of_nat k + 1)%Z by lia. reflexivity.
      + unfold var_row. rewrite <- wwindow, G. destruct (Z.ltb_spec (Z.of_nat k) win); [| lia]. f_equal. destruct k; auto.
        destruct (Z.eqb_spec (Z.of_nat (S k)) 0); [lia |]. f_equal.
        rewrite squares_snoc, mean_snoc, app_length, LN. replace (Nat.min (S k) (Z.to_nat win)) with (S k) by lia. cbn [length]. replace (S k + 1 - 1)%nat with (S k) by lia.
        unfold nqc. replace (Z.of_nat (S (S k))) with (Z.of_nat (S k) + 1)%Z by lia. reflexivity.
    - intros k x y s L E Ey ->. destruct (wslide win k l x E L) as (y' & Ey' & A). assert (y' = y) by congruence. subst y'.
      pose proof (wbefore_ne win k l x E ltac:(lia)) as NE. pose proof (wbefore_len win k l x E) as LN.
      assert (C : nqc (length (wbefore win k l)) = qc win) by (unfold nqc; f_equal; lia).
      pose proof (mean_move _ _ _ _ A NE) as M. pose proof (squares_move _ _ _ _ A NE) as Q. rewrite M in Q. rewrite C in *. split.
      + rewrite Q, M. reflexivity.
      + unfold var_row. rewrite <- wwindow. destruct (Z.ltb_spec (Z.of_nat k) win); [lia |]. destruct (Z.eqb_spec win 0); [lia |]. f_equal. f_equal. rewrite Q.
        destruct (move_sums _ _ _ _ A NE) as (LB & _). rewrite LB, C. unfold Qcdiv. ring.
    - now rewrite wnil.
  Qed.
  Lemma wmap {A B} (f : A -> B) win k l : wbefore win k (map f l) = map f (wbefore win k l).
  Proof. unfold wbefore. now rewrite firstn_map, skipn_map. Qed.
  Lemma nanvar_ok win l : (1 <= win)%Z -> exists res, RollingNanVar root win (map Some l) = Some res /\ rolled (nanvar_row root win l) l res.
  Proof.
    intros W. unfold RollingNanVar.
    match goal with |- context [roll ?p ?q win (map Some l) ?z] =>
      destruct (roll_ok p q win (map Some l) (fun k st => st = (mean (wbefore win k l), squares (wbefore win k l), Z.of_nat (length (wbefore win k l)), inv_of win)) (nanvar_row root win l)) with (s := z) as (res & R & L & H) end.
    - intros k x s L E ->. rewrite nth_error_map in E. destruct (nth_error l k) as [q |] eqn:EQ; [| discriminate]. cbn in E. inversion E; subst x. clear E.
      pose proof (wgrow win k l q EQ L) as G. pose proof (wbefore_len win k l q EQ) as LN.
      assert (C : (Z.of_nat (length (wbefore win k l)) + 1)%Z = Z.of_nat (S (length (wbefore win k l)))) by lia. rewrite C.
      rewrite G. split.
      + rewrite squares_snoc, mean_snoc, app_length. cbn [length]. replace (length (wbefore win k l) + 1)%nat with (S (length (wbefore win k l))) by lia. reflexivity.
      + unfold nanvar_row. rewrite <- wwindow, G, squares_snoc, mean_snoc, app_length. cbn [length]. replace (length (wbefore win k l) + 1)%nat with (S (length (wbefore win k l))) by lia. reflexivity.
    - intros k x y s L E Ey ->. rewrite nth_error_map in E, Ey. destruct (nth_error l k) as [q |] eqn:EQ; [| discriminate]. destruct (nth_error l (k - Z.to_nat win)) as [o |] eqn:EO; [| discriminate].
      cbn in E, Ey. inversion E; subst x. inversion Ey; subst y. clear E Ey.
      destruct (wslide win k l q EQ L) as (y' & Ey' & A). assert (y' = o) by congruence. subst y'.
      pose proof (wbefore_ne win k l q EQ ltac:(lia)) as NE. pose proof (wbefore_len win k l q EQ) as LN.
      assert (C : nqc (length (wbefore win k l)) = qc win) by (unfold nqc; f_equal; lia).
      pose proof (mean_move _ _ _ _ A NE) as M. pose proof (squares_move _ _ _ _ A NE) as Q. rewrite M in Q. rewrite C in *.
      destruct (move_sums _ _ _ _ A NE) as (LB & _).
      unfold inv_of. destruct (Z.eqb_spec win 0); [lia |]. cbn [or0]. rewrite <- Q, clamp_squares, <- M, <- LB. split; auto.
      unfold nanvar_row. rewrite <- wwindow. f_equal. cbn [times]. f_equal. rewrite LB, C. unfold Qcdiv. ring.
    - now rewrite wnil.
    - lia.
    - exists res. split; auto. split; auto. now rewrite L, map_length.
  Qed.
End Vars.
