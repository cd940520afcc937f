(** Binary64 arithmetic of Coq.Floats.SpecFloat and the real numbers, by Flocq's theorems. *)
From Coq Require Import ZArith Reals Lia Lra SpecFloat Psatz.
From Flocq Require Import Core BinarySingleNaN.
Local Open Scope Z_scope.

Section B64.
  Let prec := 53.
  Let emax := 1024.
  Local Instance Hprec : FLX.Prec_gt_0 prec := eq_refl _.
  Local Instance Hmax : Prec_lt_emax prec emax := eq_refl _.
  Notation bf := (binary_float 53 1024).

  Lemma round_nearest_even_equiv s m l : round_nearest_even m l = choice_mode mode_NE s m l.
  Proof. case l; [reflexivity|intro c; case c; [|reflexivity..]]. simpl. unfold Round.cond_incr. now case Z.even. Qed.

  Lemma round_aux_equiv sx mx ex lx : SpecFloat.binary_round_aux 53 1024 sx mx ex lx = binary_round_aux 53 1024 mode_NE sx mx ex lx.
  Proof.
    unfold SpecFloat.binary_round_aux, binary_round_aux. set (mrse' := shr_fexp _ _ _ _ _). case mrse'; intros mrs' e'; simpl.
    now rewrite (round_nearest_even_equiv sx).
  Qed.
  Lemma normalize_equiv m e szero : SpecFloat.binary_normalize 53 1024 m e szero = B2SF (binary_normalize 53 1024 Hprec Hmax mode_NE m e szero).
  Proof.
    assert (R : forall s m e, SpecFloat.binary_round 53 1024 s m e = binary_round 53 1024 mode_NE s m e).
    { intros. unfold SpecFloat.binary_round, binary_round, shl_align_fexp. set (mez := shl_align _ _ _); case mez as [mz ez]. apply round_aux_equiv. }
    case m as [|p|p]; [now simpl| |]; simpl; rewrite B2SF_SF2B; apply R.
  Qed.
  Lemma mul_equiv (x y : bf) : SFmul 53 1024 (B2SF x) (B2SF y) = B2SF (Bmult mode_NE x y).
  Proof.
    case x as [sx|sx| |sx mx ex Bx]; case y as [sy|sy| |sy my ey By]; [now trivial.. |].
    simpl. rewrite B2SF_SF2B. apply round_aux_equiv.
  Qed.
  Lemma div_equiv (x y : bf) : SFdiv 53 1024 (B2SF x) (B2SF y) = B2SF (Bdiv mode_NE x y).
  Proof.
    case x as [sx|sx| |sx mx ex Bx]; case y as [sy|sy| |sy my ey By]; [now (trivial || simpl; case Bool.eqb).. |].
    simpl. rewrite B2SF_SF2B. set (melz := SFdiv_core_binary _ _ _ _ _ _). case melz as [[mz ez] lz]. apply round_aux_equiv.
  Qed.

  Notation fexp := (SpecFloat.fexp 53 1024).
  Notation rnd := (round radix2 fexp (round_mode mode_NE)).

  Lemma int_format z : Z.abs z <= 2 ^ 53 -> generic_format radix2 fexp (IZR z).
  Proof.
    intros H. change fexp with (FLT_exp (3 - 1024 - 53) 53).
    destruct (Z.eq_dec (Z.abs z) (2 ^ 53)) as [E|E].
    - assert (H2 : generic_format radix2 (FLT_exp (3 - 1024 - 53) 53) (IZR (2 ^ 53))).
      { change (IZR (2 ^ 53)) with (bpow radix2 53). apply generic_format_bpow. unfold FLT_exp. lia. }
      assert (z = 2 ^ 53 \/ z = - 2 ^ 53) as [->| ->] by lia; auto. rewrite opp_IZR. now apply generic_format_opp.
    - apply generic_format_FLT. exists (Float radix2 z 0); simpl; [unfold F2R; simpl; lra| |lia]. 
      rewrite (IZR_Zpower radix2) || idtac. change (Z.pow_pos 2 53) with (2 ^ 53). lia.
  Qed.

  Lemma rnd_le a b : (a <= b)%R -> generic_format radix2 fexp b -> (rnd a <= b)%R.
  Proof. intros H F. apply round_le_generic; auto with typeclass_instances. apply (fexp_correct 53 1024); reflexivity. Qed.
  Lemma rnd_ge a b : (b <= a)%R -> generic_format radix2 fexp b -> (b <= rnd a)%R.
  Proof. intros H F. apply round_ge_generic; auto with typeclass_instances. apply (fexp_correct 53 1024); reflexivity. Qed.

  Lemma small_overflow x : (0 <= x <= IZR (2 ^ 53))%R -> Rlt_bool (Rabs x) (bpow radix2 1024) = true.
  Proof.
    intros H. apply Rlt_bool_true. rewrite Rabs_pos_eq by lra. apply Rle_lt_trans with (IZR (2 ^ 53)); [lra|].
    change (IZR (2 ^ 53)) with (bpow radix2 53). apply bpow_lt. lia.
  Qed.

  Lemma of_int z : 0 <= z <= 2 ^ 53 -> exists b : bf, SpecFloat.binary_normalize 53 1024 z 0 false = B2SF b /\ is_finite b = true /\ B2R b = IZR z.
  Proof.
    intros H. exists (binary_normalize 53 1024 Hprec Hmax mode_NE z 0 false). split; [apply normalize_equiv|].
    pose proof (binary_normalize_correct 53 1024 Hprec Hmax mode_NE z 0 false) as C. cbv zeta in C.
    assert (X : F2R (Float radix2 z 0) = IZR z) by (unfold F2R; simpl; lra). rewrite X in C.
    assert (G : rnd (IZR z) = IZR z) by (apply round_generic; auto with typeclass_instances; apply int_format; lia).
    rewrite G in C. rewrite small_overflow in C by (split; apply IZR_le; lia). destruct C as (C1 & C2 & _). auto.
  Qed.

  Lemma mul_le (x y : bf) z : is_finite x = true -> is_finite y = true -> 0 <= z <= 2 ^ 53 -> (0 <= B2R x * B2R y <= IZR z)%R ->
    is_finite (Bmult mode_NE x y) = true /\ (0 <= B2R (Bmult mode_NE x y) <= IZR z)%R.
  Proof.
    intros Fx Fy Hz H. pose proof (Bmult_correct 53 1024 Hprec Hmax mode_NE x y) as C.
    assert (L : (0 <= rnd (B2R x * B2R y) <= IZR z)%R).
    { split; [apply rnd_ge; [lra|apply generic_format_0]|apply rnd_le; [lra|apply int_format; lia]]. }
    rewrite small_overflow in C by (split; [lra|apply Rle_trans with (IZR z); [lra|apply IZR_le; lia]]).
    destruct C as (C1 & C2 & _). rewrite C1, C2, Fx, Fy. auto.
  Qed.

  Lemma div_le (x y : bf) z : is_finite x = true -> B2R y <> 0%R -> 0 <= z <= 2 ^ 53 -> (0 <= B2R x / B2R y <= IZR z)%R ->
    is_finite (Bdiv mode_NE x y) = true /\ (0 <= B2R (Bdiv mode_NE x y) <= IZR z)%R.
  Proof.
    intros Fx Ny Hz H. pose proof (Bdiv_correct 53 1024 Hprec Hmax mode_NE x y Ny) as C.
    assert (L : (0 <= rnd (B2R x / B2R y) <= IZR z)%R).
    { split; [apply rnd_ge; [lra|apply generic_format_0]|apply rnd_le; [lra|apply int_format; lia]]. }
    rewrite small_overflow in C by (split; [lra|apply Rle_trans with (IZR z); [lra|apply IZR_le; lia]]).
    destruct C as (C1 & C2 & _). rewrite C1, C2. auto.
  Qed.
End B64.
