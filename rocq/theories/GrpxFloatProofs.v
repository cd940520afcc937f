(** The quantile indices, computed in binary64, are positions of the group. *)
From Coq Require Import Reals Lra SpecFloat.
From Flocq Require Import Core BinarySingleNaN.
From Verif Require Import Base GrpxModel Float64.
Local Open Scope Z_scope.

Lemma sf_floor_R (b : binary_float 53 1024) : is_finite b = true -> sf_floor (B2SF b) = Zfloor (B2R b).
Proof.
  destruct b as [s|s| |s m e H]; try discriminate; intros _; simpl; [now rewrite Zfloor_IZR|].
  change (if s then Z.neg m else Z.pos m) with (cond_Zopp s (Z.pos m)).
  unfold F2R. simpl Fnum; simpl Fexp. destruct (Z.leb_spec 0 e) as [He|He].
  - replace (bpow radix2 e) with (IZR (2 ^ e)) by (now rewrite (IZR_Zpower radix2) by lia). rewrite <- mult_IZR, Zfloor_IZR. reflexivity.
  - replace (bpow radix2 e) with (/ IZR (2 ^ (- e)))%R.
    + change (IZR (cond_Zopp s (Z.pos m)) * / IZR (2 ^ (- e)))%R with (IZR (cond_Zopp s (Z.pos m)) / IZR (2 ^ (- e)))%R.
      rewrite Zfloor_div; auto. lia.
    + rewrite (IZR_Zpower radix2) by lia. rewrite <- bpow_opp. now rewrite Z.opp_involutive.
Qed.

Lemma sf_ceil_R (b : binary_float 53 1024) : is_finite b = true -> sf_ceil (B2SF b) = Zceil (B2R b).
Proof.
  destruct b as [s|s| |s m e H]; try discriminate; intros _; simpl; [now rewrite Zceil_IZR|].
  change (if s then Z.neg m else Z.pos m) with (cond_Zopp s (Z.pos m)).
  unfold F2R. simpl Fnum; simpl Fexp. destruct (Z.leb_spec 0 e) as [He|He].
  - replace (bpow radix2 e) with (IZR (2 ^ e)) by (now rewrite (IZR_Zpower radix2) by lia). rewrite <- mult_IZR, Zceil_IZR. reflexivity.
  - unfold Zceil. replace (- (IZR (cond_Zopp s (Z.pos m)) * bpow radix2 e))%R with (IZR (- cond_Zopp s (Z.pos m)) / IZR (2 ^ (- e)))%R.
    + rewrite Zfloor_div; auto. lia.
    + rewrite opp_IZR, (IZR_Zpower radix2) by lia. unfold Rdiv. rewrite <- bpow_opp, Z.opp_involutive. lra.
Qed.

Lemma q_bounds p n : 0 <= p <= 10 ^ 9 -> (0 < n)%nat -> Z.of_nat n <= 2 ^ 53 ->
  0 <= q_down p n <= q_up p n /\ q_up p n <= q_down p n + 1 /\ q_up p n < Z.of_nat n.
Proof.
  intros Hp Hn Hb. unfold q_down, q_up, frac_index, sf.
  destruct (of_int (Z.of_nat n - 1) ltac:(lia)) as (bn & -> & Fn & Rn).
  destruct (of_int p ltac:(lia)) as (bp & -> & Fp & Rp).
  destruct (of_int (10 ^ 9) ltac:(lia)) as (bd & -> & Fd & Rd).
  rewrite div_equiv.
  assert (P : (0 <= IZR p <= IZR (10 ^ 9))%R) by (split; apply IZR_le; lia).
  assert (D : (0 < IZR (10 ^ 9))%R) by (apply IZR_lt; lia).
  destruct (div_le bp bd 1 Fp) as [F1 B1]; [rewrite Rd; lra|lia| |].
  { rewrite Rp, Rd. split; [apply Rmult_le_pos; [lra|]; apply Rlt_le, Rinv_0_lt_compat; lra|].
    apply Rmult_le_reg_r with (IZR (10 ^ 9)); [lra|]. unfold Rdiv. rewrite Rmult_assoc, Rinv_l by lra. lra. }
  rewrite mul_equiv. set (q := Bdiv mode_NE bp bd) in *.
  assert (N : (0 <= IZR (Z.of_nat n - 1))%R) by (apply IZR_le; lia).
  destruct (mul_le bn q (Z.of_nat n - 1) Fn F1 ltac:(lia)) as [F2 B2].
  { rewrite Rn. split; [apply Rmult_le_pos; lra|]. rewrite <- (Rmult_1_r (IZR (Z.of_nat n - 1))) at 2. apply Rmult_le_compat_l; lra. }
  set (x := Bmult mode_NE bn q) in *. rewrite sf_floor_R, sf_ceil_R by auto.
  assert (0 <= Zfloor (B2R x)) by (apply (Zfloor_lub 0); simpl; lra).
  assert (Zceil (B2R x) <= Z.of_nat n - 1) by (apply Zceil_glb; lra).
  assert (Zfloor (B2R x) <= Zceil (B2R x)).
  { apply le_IZR. apply Rle_trans with (B2R x); [apply Zfloor_lb|apply Zceil_ub]. }
  assert (Zceil (B2R x) <= Zfloor (B2R x) + 1).
  { apply Zceil_glb. rewrite plus_IZR. apply Rlt_le. apply Zfloor_ub. }
  lia.
Qed.
