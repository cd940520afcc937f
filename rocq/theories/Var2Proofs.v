(** Proofs: the group variance over the real numbers is the variance of the sample. *)
From Verif Require Import Base AccumSpec VarSpec.
From Coq Require Import Reals Lra.
Local Open Scope Z_scope.

Notation rplus := (lift2 Rplus).
Notation rminus := (lift2 Rminus).
Notation rmult := (lift2 Rmult).

Lemma total_real xs : forall a, fold_left (fun s (x : option R) => rplus s x) (map Some xs) (Some a) = Some (a + Rtotal xs)%R.
Proof.
  induction xs as [|x xs IH]; intros a; cbn [map fold_left Rtotal lift2]; [f_equal; lra|].
  rewrite IH. f_equal. lra.
Qed.
Lemma squares_real m xs : forall a,
  fold_left (fun s (x : option R) => rplus s (rmult (rminus x (Some m)) (rminus x (Some m)))) (map Some xs) (Some a)
  = Some (a + Rtotal (map (fun x => (x - m) ^ 2) xs))%R.
Proof.
  induction xs as [|x xs IH]; intros a; cbn [map fold_left Rtotal lift2]; [f_equal; lra|].
  rewrite IH. f_equal. cbn [pow]. lra.
Qed.
Lemma all_some xs : forallb is_num (map Some xs) = true.
Proof. induction xs; cbn; auto. Qed.

Lemma var_real xs r : var_spec is_num None (Some 0%R) (fun x => x) (fun x => x) rplus rminus rmult rdivn (map Some xs) r ->
  r = if (2 <=? length xs)%nat then Some (sample_variance xs) else None.
Proof.
  unfold var_spec. rewrite all_some, map_length. cbn [andb]. intros ->.
  destruct (Nat.leb_spec 2 (length xs)) as [L|L]; [|reflexivity].
  assert (M : mean_value (Some 0%R) (fun x : option R => x) rplus rdivn (map Some xs) = Some (Raverage xs)).
  { unfold mean_value, total. rewrite total_real, map_length. unfold rdivn.
    destruct (Z.eqb_spec (Z.of_nat (length xs)) 0); [lia|]. cbn [lift1]. unfold Raverage. f_equal. f_equal. lra. }
  rewrite M. unfold squares. rewrite squares_real. unfold rdivn.
  destruct (Z.eqb_spec (Z.of_nat (length xs) - 1) 0); [lia|]. cbn [lift1]. unfold sample_variance. f_equal. f_equal. lra.
Qed.

Lemma numbers_filter l : filter is_num l = map Some (numbers l).
Proof. induction l as [|[x|] l IH]; cbn; [reflexivity| |]; rewrite IH; reflexivity. Qed.
Lemma numbers_all l : ~ In None l -> l = map Some (numbers l).
Proof.
  intros H. rewrite <- numbers_filter. induction l as [|[x|] l IH]; cbn; [reflexivity| |].
  - f_equal. apply IH. intros I. apply H. now right.
  - exfalso. apply H. now left.
Qed.
Lemma var_none l r : In None l -> var_spec is_num None (Some 0%R) (fun x => x) (fun x => x) rplus rminus rmult rdivn l r -> r = None.
Proof.
  intros I ->. replace (forallb is_num l) with false; [reflexivity|]. symmetry. apply not_true_iff_false. intros H.
  rewrite forallb_forall in H. specialize (H None I). discriminate.
Qed.

Lemma Rtotal_squares_nonneg (f : R -> R) l : (0 <= Rtotal (map (fun x => (f x) ^ 2) l))%R.
Proof. induction l as [|x l IH]; cbn [map Rtotal]; [lra|]. pose proof (pow2_ge_0 (f x)). lra. Qed.
Lemma variance_nonneg l : (2 <= length l)%nat -> (0 <= sample_variance l)%R.
Proof.
  intros L. unfold sample_variance. apply Rmult_le_pos; [apply Rtotal_squares_nonneg|].
  apply Rlt_le, Rinv_0_lt_compat. apply (IZR_lt 0). lia.
Qed.
Lemma Rtotal_const (a : R) l : (forall x, In x l -> x = a) -> Rtotal l = (IZR (Z.of_nat (length l)) * a)%R.
Proof.
  induction l as [|x l IH]; intros H; cbn [Rtotal length].
  - cbn. lra.
  - rewrite (H x) by now left. rewrite IH by (intros y Y; apply H; now right). rewrite Nat2Z.inj_succ, succ_IZR. lra.
Qed.
Lemma variance_const (a : R) l : (2 <= length l)%nat -> (forall x, In x l -> x = a) -> sample_variance l = 0%R.
Proof.
  intros L H. unfold sample_variance.
  assert (N : IZR (Z.of_nat (length l)) <> 0%R) by (apply not_0_IZR; lia).
  assert (M : Raverage l = a). { unfold Raverage. rewrite (Rtotal_const a) by exact H. field. exact N. }
  rewrite (Rtotal_const 0%R).
  - rewrite Rmult_0_r. unfold Rdiv. apply Rmult_0_l.
  - intros y Y. apply in_map_iff in Y as (x & <- & I). rewrite M, (H x I). ring.
Qed.
