From Coq Require Import Reals Lra SpecFloat.
From Flocq Require Import Core BinarySingleNaN.
From Verif Require Import Base Mem MemLemmas Par ConvModel ConvSpec.
Local Open Scope Z_scope.

(** ** Floating point of any format *)
Section Fmt.
  Variables (p e : Z).
  Context (Hp : FLX.Prec_gt_0 p) (Hm : Prec_lt_emax p e).

  Lemma rne_equiv s m l : round_nearest_even m l = choice_mode mode_NE s m l.
  Proof. case l; [reflexivity|intro c; case c; [|reflexivity..]]. simpl. unfold Round.cond_incr. now case Z.even. Qed.
  Lemma round_aux_equivF sx mx ex lx : SpecFloat.binary_round_aux p e sx mx ex lx = binary_round_aux p e mode_NE sx mx ex lx.
  Proof.
    unfold SpecFloat.binary_round_aux, binary_round_aux. set (mrse' := shr_fexp _ _ _ _ _). case mrse'; intros mrs' e'; simpl.
    now rewrite (rne_equiv sx).
  Qed.
  Lemma round_equivF s m ex : SpecFloat.binary_round p e s m ex = binary_round p e mode_NE s m ex.
  Proof. unfold SpecFloat.binary_round, binary_round, shl_align_fexp. set (mez := shl_align _ _ _); case mez as [mz ez]. apply round_aux_equivF. Qed.

  Notation fx := (SpecFloat.fexp p e).
  Lemma SF2R_format f : valid_binary p e f = true -> generic_format radix2 fx (SF2R radix2 f).
  Proof. intros H. rewrite <- (B2R_SF2B p e f H). apply generic_format_B2R. Qed.
  Lemma SF2R_bound f : valid_binary p e f = true -> (Rabs (SF2R radix2 f) < bpow radix2 e)%R.
  Proof. intros H. rewrite <- (B2R_SF2B p e f H). apply abs_B2R_lt_emax. Qed.

  (* rounding to a number of the format is exact *)
  Lemma binary_round_exact s m ex f : valid_binary p e f = true -> SF2R radix2 f = F2R (Float radix2 (cond_Zopp s (Zpos m)) ex) ->
    valid_binary p e (SpecFloat.binary_round p e s m ex) = true /\
    is_finite_SF (SpecFloat.binary_round p e s m ex) = true /\ SF2R radix2 (SpecFloat.binary_round p e s m ex) = SF2R radix2 f.
  Proof.
    intros V E. rewrite round_equivF. destruct (binary_round_correct p e Hp Hm mode_NE s m ex) as [W C]. split; [exact W|].
    cbv zeta in C. rewrite <- E in C. rewrite (round_generic radix2 fx (round_mode mode_NE) (SF2R radix2 f)) in C by now apply SF2R_format.
    rewrite Rlt_bool_true in C by now apply SF2R_bound. tauto.
  Qed.
  Lemma binary_round_nearest s m ex : (Rabs (round radix2 fx ZnearestE (F2R (Float radix2 (cond_Zopp s (Zpos m)) ex))) < bpow radix2 e)%R ->
    valid_binary p e (SpecFloat.binary_round p e s m ex) = true /\
    is_finite_SF (SpecFloat.binary_round p e s m ex) = true /\
    SF2R radix2 (SpecFloat.binary_round p e s m ex) = round radix2 fx ZnearestE (F2R (Float radix2 (cond_Zopp s (Zpos m)) ex)).
  Proof.
    intros L. rewrite round_equivF. destruct (binary_round_correct p e Hp Hm mode_NE s m ex) as [W C]. split; [exact W|].
    cbv zeta in C. simpl round_mode in C. rewrite Rlt_bool_true in C by exact L. tauto.
  Qed.
End Fmt.

Lemma fmt_prec u : FLX.Prec_gt_0 (prec u). Proof. unfold FLX.Prec_gt_0. destruct u; reflexivity. Qed.
Lemma fmt_emax u : Prec_lt_emax (prec u) (emax u). Proof. unfold Prec_lt_emax. destruct u; reflexivity. Qed.

Lemma F2R_int z : F2R (Float radix2 z 0) = IZR z. Proof. unfold F2R. simpl. lra. Qed.

Lemma fconv_exact u f g : valid_binary (prec u) (emax u) g = true -> is_finite_SF f = true -> SF2R radix2 g = SF2R radix2 f ->
  valid_binary (prec u) (emax u) (fconv u f) = true /\ is_finite_SF (fconv u f) = true /\ SF2R radix2 (fconv u f) = SF2R radix2 f.
Proof.
  intros V F E. destruct f as [s|s| |s m ex]; simpl in F; try discriminate.
  - auto.
  - simpl in E |- *. destruct (binary_round_exact _ _ (fmt_prec u) (fmt_emax u) s m ex g V E) as (A & B & C). now rewrite C.
Qed.
Lemma normalize_exact u z g : valid_binary (prec u) (emax u) g = true -> SF2R radix2 g = IZR z ->
  let f := SpecFloat.binary_normalize (prec u) (emax u) z 0 false in
  valid_binary (prec u) (emax u) f = true /\ is_finite_SF f = true /\ SF2R radix2 f = IZR z.
Proof.
  intros V E. destruct z as [|p|p]; simpl.
  - auto.
  - destruct (binary_round_exact _ _ (fmt_prec u) (fmt_emax u) false p 0 g V) as (A & B & C); [simpl; now rewrite F2R_int|]. rewrite C, E. auto.
  - destruct (binary_round_exact _ _ (fmt_prec u) (fmt_emax u) true p 0 g V) as (A & B & C); [simpl; now rewrite F2R_int|]. rewrite C, E. auto.
Qed.

Lemma normalize_nearest u z : Z.abs z <= 2 ^ 64 -> 
  let f := SpecFloat.binary_normalize (prec u) (emax u) z 0 false in
  valid_binary (prec u) (emax u) f = true /\ is_finite_SF f = true /\ SF2R radix2 f = nearest u (IZR z).
Proof.
  intros H. unfold nearest.
  assert (L : (Rabs (round radix2 (SpecFloat.fexp (prec u) (emax u)) ZnearestE (IZR z)) < bpow radix2 (emax u))%R).
  { pose proof (fmt_prec u) as HP. pose proof (fexp_correct (prec u) (emax u) HP) as HV.
    apply Rle_lt_trans with (bpow radix2 64).
    - apply abs_round_le_generic; auto with typeclass_instances.
      + apply generic_format_bpow. unfold SpecFloat.fexp, SpecFloat.emin. destruct u; simpl; lia.
      + rewrite <- abs_IZR. change (bpow radix2 64) with (IZR (2 ^ 64)). now apply IZR_le.
    - apply bpow_lt. destruct u; simpl; lia. }
  destruct z as [|p|p]; simpl.
  - split; auto. split; auto. symmetry. apply round_0; auto with typeclass_instances.
  - destruct (binary_round_nearest _ _ (fmt_prec u) (fmt_emax u) false p 0) as (A & B & C); [simpl; now rewrite F2R_int|].
    simpl in C. rewrite F2R_int in C. auto.
  - destruct (binary_round_nearest _ _ (fmt_prec u) (fmt_emax u) true p 0) as (A & B & C); [simpl; now rewrite F2R_int|].
    simpl in C. rewrite F2R_int in C. auto.
Qed.

Lemma ftrunc_R f : is_finite_SF f = true -> ftrunc f = Some (Ztrunc (SF2R radix2 f)).
Proof.
  destruct f as [s|s| |s m ex]; try discriminate; intros _.
  - simpl. now rewrite Ztrunc_IZR.
  - unfold ftrunc, SF2R. cbv zeta. f_equal. 
    assert (A : (if 0 <=? ex then Zpos m * 2 ^ ex else Zpos m / 2 ^ (- ex)) = Zfloor (F2R (Float radix2 (Zpos m) ex))).
    { destruct (Z.leb_spec 0 ex) as [H|H].
      - unfold F2R. simpl. rewrite <- (IZR_Zpower radix2 ex) by auto. rewrite <- mult_IZR. now rewrite Zfloor_IZR.
      - unfold F2R. simpl. replace ex with (- (- ex)) at 2 by lia. rewrite bpow_opp.
        rewrite <- (IZR_Zpower radix2 (- ex)) by lia. fold (Rdiv (IZR (Zpos m)) (IZR (radix2 ^ (- ex)))).
        rewrite Zfloor_div; [reflexivity|]. simpl. assert (0 < 2 ^ (- ex)) by (apply Z.pow_pos_nonneg; lia). lia. }
    assert (P : (0 <= F2R (Float radix2 (Zpos m) ex))%R) by (apply F2R_ge_0; simpl; lia).
    rewrite A. destruct s; simpl cond_Zopp.
    + change (Zneg m) with (- Zpos m). rewrite F2R_Zopp, Ztrunc_opp, Ztrunc_floor; auto.
    + now rewrite Ztrunc_floor.
Qed.

(** ** Conversions of one item *)

Lemma wrapT_id u z : is_float u = false -> u <> Bool -> lo u <= z <= hi u -> wrapT u z = z.
Proof.
  intros F B H. unfold wrapT. destruct u; try discriminate; try congruence; cbn [is_signed bits lo hi] in *; unfold lo, hi in H; cbn [is_signed bits] in H;
    try (apply wrap_id; [lia|]; change (8 - 1) with 7 in *; lia); apply Z.mod_small; lia.
Qed.

Lemma cast_keeps t u x r : typed t x -> denotes x r -> representable u r -> exists y, cast u x = Some y /\ typed u y /\ denotes y r.
Proof.
  intros T D (y & TY & DY). destruct (is_float u) eqn:FU.
  - destruct y as [z|g]; simpl in TY; [destruct TY; congruence|]. destruct TY as [_ VG]. destruct DY as [FG RG].
    destruct x as [z|f].
    + simpl in D. destruct (normalize_exact u z g VG) as (A & B & C); [congruence|].
      exists (VF (SpecFloat.binary_normalize (prec u) (emax u) z 0 false)). split; [destruct u; try discriminate; reflexivity|].
      split; simpl; auto. split; auto. congruence.
    + destruct D as [FF RF]. destruct (fconv_exact u f g VG FF) as (A & B & C); [congruence|].
      exists (VF (fconv u f)). split; [destruct u; try discriminate; reflexivity|]. split; simpl; auto. split; auto. congruence.
  - destruct y as [z|g]; simpl in TY; [|destruct TY; congruence]. destruct TY as [_ LZ]. simpl in DY. subst r.
    destruct (dtype_beq u Bool) eqn:EB.
    + apply internal_dtype_dec_bl in EB. subst u. exists (VI z). unfold lo, hi in LZ. simpl in LZ.
      assert (N : nonzero x = negb (z =? 0)).
      { destruct x as [z'|f]; simpl in D |- *; [apply eq_IZR in D; now subst z'|]. destruct D as [FF RF].
        destruct f as [s|s| |s m ex]; simpl in *; try discriminate.
        - apply eq_IZR in RF. now subst z.
        - destruct (Z.eqb_spec z 0) as [->|]; auto. exfalso.
          apply (F2R_neq_0 radix2 (Float radix2 (cond_Zopp s (Zpos m)) ex)); [destruct s; simpl; lia|auto]. }
      split; [simpl; rewrite N; do 2 f_equal; destruct (Z.eqb_spec z 0); simpl; lia|]. split; simpl; auto.
    + assert (NB : u <> Bool) by (intros ->; discriminate).
      destruct x as [z'|f].
      * simpl in D. apply eq_IZR in D. subst z'. exists (VI z). split; [|split; simpl; auto].
        destruct u; try discriminate; try congruence; unfold cast; now rewrite wrapT_id.
      * destruct D as [FF RF]. exists (VI z). split; [|split; simpl; auto].
        assert (Q : cast u (VF f) = match ftrunc f with Some z => if (lo u <=? z) && (z <=? hi u) then Some (VI z) else None | None => None end)
          by (destruct u; try discriminate; try congruence; reflexivity).
        rewrite Q, ftrunc_R by auto. rewrite RF, Ztrunc_IZR.
        destruct (Z.leb_spec (lo u) z), (Z.leb_spec z (hi u)); try lia. reflexivity.
Qed.

Lemma isfinite_SF f : isfinite f = is_finite_SF f. Proof. now destruct f. Qed.
Lemma vneq_nan f : vneq (VF f) (VF S754_nan) = true. Proof. now destruct f as [[]|[]| |[]]. Qed.
Lemma invalid_default t : t <> Bool -> invalid t = Some (GetDefaultForType t).
Proof. destruct t; try congruence; reflexivity. Qed.
Lemma vneq_refl t x : typed t x -> vneq x x = negb (if is_float t then match x with VF S754_nan => false | _ => true end else true).
Proof.
  destruct x as [z|f]; simpl; intros [F H]; rewrite F; simpl.
  - now rewrite Z.eqb_refl.
  - destruct f as [[]|[]| |[] m ex]; simpl; auto; unfold SFeqb; simpl; rewrite Z.compare_refl, Pos.compare_refl || rewrite Z.compare_refl; auto;
      now rewrite ?Pos.compare_cont_refl, ?Pos.compare_refl.
Qed.

Lemma vneq_invalid t x : typed t x -> invalid t <> Some x -> vneq x (GetInvalid t) = true.
Proof.
  destruct x as [z|f]; intros [F H] N.
  - destruct t; try discriminate; simpl; apply negb_true_iff, Z.eqb_neq; unfold lo, hi in *; simpl in *; try congruence; lia.
  - destruct t; try discriminate; apply vneq_nan.
Qed.

Lemma convert_safe_keeps t u : keeps_numbers convert_safe t u.
Proof.
  intros x r T N D P. unfold convert_safe, GetConversionFunctionSafe. destruct (dtype_beq t u) eqn:E.
  - apply internal_dtype_dec_bl in E. subst u. exists x. simpl. auto.
  - destruct (cast_keeps t u x r T D P) as (y & C & R).
    assert (V : vneq x (GetInvalid t) = true) by now apply vneq_invalid.
    exists y. split; auto.
    destruct (dtype_beq u Bool) eqn:EB; [apply internal_dtype_dec_bl in EB; subst u; exact C|].
    assert (FT : is_float t = true -> exists f, x = VF f /\ isfinite f = true).
    { intros FF. destruct x as [z|f]; destruct T as [T1 T2]; [congruence|]. exists f. rewrite isfinite_SF. split; auto. apply D. }
    destruct t, u; try discriminate; cbn [run_kernel]; try (rewrite V; exact C); try exact C;
      destruct (FT eq_refl) as (f & -> & FF); rewrite FF, V; exact C.
Qed.
Lemma convert_safe_invalid t u : keeps_invalid convert_safe t u.
Proof. intros x y. destruct t, u; simpl; intros; try discriminate; repeat match goal with H : Some _ = Some _ |- _ => injection H as <- end; reflexivity. Qed.

Lemma cast_nan_aware_keeps t u : keeps_numbers cast_nan_aware t u.
Proof.
  intros x r T N D P. destruct (cast_keeps t u x r T D P) as (y & C & R). exists y. split; auto. unfold cast_nan_aware.
  replace (is_valid t x) with true; auto. destruct (is_float t) eqn:F.
  - assert (vneq x x = false).
    { rewrite (vneq_refl t) by auto. rewrite F. destruct x as [|[]]; simpl; auto. simpl in D. destruct D; discriminate. }
    destruct t; try discriminate; simpl; now rewrite H.
  - pose proof (vneq_invalid t x T N) as V. destruct t; try discriminate; simpl in *; auto.
Qed.
Lemma cast_nan_aware_invalid t u x : invalid t = Some x -> cast_nan_aware t u x = Some (GetDefaultForType u).
Proof. destruct t; simpl; intros [= <-]; reflexivity. Qed.

Lemma convert_unsafe_keeps t u x r : typed t x -> denotes x r -> representable u r -> exists y, convert_unsafe t u x = Some y /\ typed u y /\ denotes y r.
Proof.
  intros T D P. unfold convert_unsafe, GetConversionFunctionUnsafe. destruct (dtype_beq t u) eqn:E.
  - apply internal_dtype_dec_bl in E. subst u. exists x. simpl. auto.
  - destruct (cast_keeps t u x r T D P) as (y & C & R). exists y. split; auto. destruct u; exact C.
Qed.

Lemma homogenize_safe t u x : t <> Bool -> convert_homogenize t u x = convert_safe t u x.
Proof. intros H. unfold convert_homogenize, convert_safe, GetConversionFunctionSafe. destruct (dtype_beq t u); auto. destruct t; auto; congruence. Qed.

Lemma putmask_keeps t u : t <> Bool \/ u = Bool -> keeps_numbers convert_putmask t u.
Proof.
  intros HB x r T N D P. unfold convert_putmask, GetConversionPutMask. destruct (dtype_beq t u) eqn:E.
  - apply internal_dtype_dec_bl in E. subst u. exists x. simpl. auto.
  - destruct (cast_keeps t u x r T D P) as (y & C & R). exists y. split; auto.
    pose proof (vneq_invalid t x T N) as V.
    assert (FT : is_float t = true -> vneq x x = false).
    { intros F. rewrite (vneq_refl t) by auto. rewrite F. destruct x as [|[]]; simpl; auto. simpl in D. destruct D; discriminate. }
    assert (NB : t = Bool -> u = Bool) by (intros; destruct HB; tauto).
    destruct t, u; try discriminate; simpl run_mkernel; try exact C; try (rewrite FT by reflexivity; exact C); try (now specialize (NB eq_refl));
      simpl in V; rewrite V; exact C.
Qed.
Lemma putmask_invalid t u : keeps_invalid convert_putmask t u.
Proof. intros x y. destruct t, u; simpl; intros; try discriminate; repeat match goal with H : Some _ = Some _ |- _ => injection H as <- end; reflexivity. Qed.

(** ** Rounding and truncation *)
Lemma convert_nearest t u z : is_float t = false -> is_float u = true -> typed t (VI z) -> invalid t <> Some (VI z) ->
  exists f, convert_safe t u (VI z) = Some (VF f) /\ typed u (VF f) /\ denotes (VF f) (nearest u (IZR z)).
Proof.
  intros FT FU T N. pose proof (vneq_invalid t _ T N) as V. destruct T as [_ T].
  destruct (normalize_nearest u z) as (A & B & C). { destruct t; try discriminate; unfold lo, hi in T; simpl in T; lia. }
  exists (SpecFloat.binary_normalize (prec u) (emax u) z 0 false). split.
  - unfold convert_safe, GetConversionFunctionSafe. destruct t, u; try discriminate; simpl in V |- *; rewrite V; reflexivity.
  - split; split; auto.
Qed.
Lemma convert_trunc t u f : is_float t = true -> is_float u = false -> u <> Bool -> typed t (VF f) -> is_finite_SF f = true ->
  convert_safe t u (VF f) =
    (if (lo u <=? Ztrunc (SF2R radix2 f)) && (Ztrunc (SF2R radix2 f) <=? hi u) then Some (VI (Ztrunc (SF2R radix2 f))) else None).
Proof.
  intros FT FU NB T F. unfold convert_safe, GetConversionFunctionSafe.
  assert (Q : cast u (VF f) = match ftrunc f with Some z => if (lo u <=? z) && (z <=? hi u) then Some (VI z) else None | None => None end)
    by (destruct u; try discriminate; try congruence; reflexivity).
  rewrite ftrunc_R in Q by auto. 
  assert (V : isfinite f && vneq (VF f) (VF S754_nan) = true) by (now rewrite isfinite_SF, F, vneq_nan).
  destruct t, u; try discriminate; try congruence; cbn [dtype_beq run_kernel GetInvalid GetDefaultForType]; rewrite V; exact Q.
Qed.
Lemma convert_not_finite t u f : is_float t = true -> is_float u = false -> u <> Bool -> is_finite_SF f = false -> 
  convert_safe t u (VF f) = invalid u.
Proof.
  intros FT FU NB F. unfold convert_safe, GetConversionFunctionSafe.
  destruct f as [s|s| |s m ex]; try discriminate; destruct t, u; try discriminate; try congruence; reflexivity.
Qed.

(** ** Round trips *)
Lemma roundtrip t u x : is_float t = false -> t <> Bool -> u <> Bool -> includes u t -> typed t x ->
  exists y, convert_safe t u x = Some y /\ convert_safe u t y = Some x.
Proof.
  intros FT TB UB IN T. destruct x as [z|f]; [|destruct T; congruence].
  destruct (invalid t) as [b|] eqn:I; [|destruct t; try discriminate; congruence].
  assert (DEC : b = VI z \/ b <> VI z). { destruct b as [z'|]; [|right; discriminate]. destruct (Z.eq_dec z' z); [left|right]; congruence. }
  destruct DEC as [->|NE].
  - destruct (invalid u) as [c|] eqn:J; [|destruct u; try discriminate; congruence].
    exists c. split; [now apply convert_safe_invalid|now apply convert_safe_invalid].
  - destruct (IN z T) as [P NU]; [congruence|].
    destruct (convert_safe_keeps t u (VI z) (IZR z) T) as (y & C & TY & DY); [congruence|reflexivity|exact P|].
    exists y. split; auto.
    destruct (convert_safe_keeps u t y (IZR z) TY) as (x' & C' & TX & DX).
    + intros E. destruct y as [zy|fy]; simpl in DY.
      * apply eq_IZR in DY. congruence.
      * destruct DY as [DF _]. destruct u; simpl in E; try discriminate; injection E as <-; discriminate.
    + exact DY.
    + exists (VI z). split; auto. reflexivity.
    + destruct x' as [z'|]; [|destruct TX; congruence]. simpl in DX. apply eq_IZR in DX. now subst.
Qed.

Lemma int_representable u z : is_float u = true -> Z.abs z <= 2 ^ prec u -> representable u (IZR z).
Proof.
  intros F H. destruct (normalize_nearest u z) as (A & B & C).
  { assert (2 ^ prec u <= 2 ^ 64) by (apply Z.pow_le_mono_r; destruct u; simpl; lia). lia. }
  exists (VF (SpecFloat.binary_normalize (prec u) (emax u) z 0 false)). split; [split; auto|]. split; auto. rewrite C. unfold nearest.
  apply round_generic; auto with typeclass_instances.
  destruct (Z.eq_dec (Z.abs z) (2 ^ prec u)) as [E|E].
  - assert (G : generic_format radix2 (SpecFloat.fexp (prec u) (emax u)) (IZR (2 ^ prec u))).
    { change 2 with (radix_val radix2). rewrite IZR_Zpower by (destruct u; simpl; lia). apply generic_format_bpow.
      unfold SpecFloat.fexp, SpecFloat.emin. destruct u; simpl; lia. }
    destruct (Z.abs_spec z) as [[? Q]|[? Q]]; rewrite Q in E; [now rewrite E|].
    replace z with (- (2 ^ prec u)) by lia. rewrite opp_IZR. now apply generic_format_opp.
  - change (SpecFloat.fexp (prec u) (emax u)) with (FLT_exp (3 - emax u - prec u) (prec u)).
    apply generic_format_FLT. exists (Float radix2 z 0); simpl; [now rewrite F2R_int|lia|]. destruct u; simpl; lia.
Qed.

Lemma holds_includes t u : is_float t = false -> t <> Bool -> u <> Bool -> holds_integers t u = true ->
  (invalid u = invalid t \/ (forall b, invalid u = Some (VI b) -> ~ (lo t <= b <= hi t))) -> includes u t.
Proof.
  intros FT TB UB H HI z [_ T] N. unfold holds_integers in H. rewrite FT in H. split.
  - destruct (is_float u) eqn:FU.
    + apply int_representable; auto. assert (0 < 2 ^ prec u) by (apply Z.pow_pos_nonneg; destruct u; simpl; lia). lia.
    + exists (VI z). split; [split; auto; lia|reflexivity].
  - intros E. destruct HI as [HI|HI]; [congruence|]. now apply (HI z).
Qed.

(** ** Writes to some of the places *)
Definition sparse {A} (w : nat -> option A) (n : nat) : list (Z * A) :=
  concat (map (fun i => match w i with Some y => [(Z.of_nat i, y)] | None => [] end) (seq 0 n)).
Lemma sparse_in {A} (w : nat -> option A) n k y : In (k, y) (sparse w n) <-> exists i, (i < n)%nat /\ k = Z.of_nat i /\ w i = Some y.
Proof.
  unfold sparse. rewrite in_concat. split.
  - intros (l & H & I). apply in_map_iff in H as (i & <- & Hi). apply in_seq in Hi. destruct (w i) as [z|] eqn:E; [|destruct I].
    destruct I as [[= <- <-]|[]]. exists i. split; [lia|auto].
  - intros (i & Hi & -> & E). exists [(Z.of_nat i, y)]. split; [|left; auto]. apply in_map_iff. exists i. rewrite E. split; auto. apply in_seq. lia.
Qed.
Lemma sparse_nodup {A} (w : nat -> option A) n : NoDup (map fst (sparse w n)).
Proof.
  unfold sparse. induction n as [|n IH]; [constructor|]. rewrite seq_S, map_app, concat_app, map_app. simpl. rewrite app_nil_r.
  destruct (w n) as [y|] eqn:E; simpl; [|now rewrite app_nil_r].
  eapply Permutation_NoDup; [apply Permutation_cons_append|]. constructor; auto.
  intros H. apply in_map_iff in H as ([k z] & Hk & H). simpl in Hk. subst k. apply (sparse_in w n) in H as (i & Hi & Hk & _). lia.
Qed.
Lemma replaced_nth {A} (w : nat -> option A) arr i : nth_error (replaced w arr) i =
  match nth_error arr i with None => None | Some x => Some (match w i with Some y => y | None => x end) end.
Proof.
  unfold replaced. rewrite nth_error_map.
  assert (Q : forall s (l : list A) j, nth_error (combine (seq s (length l)) l) j = match nth_error l j with None => None | Some x => Some ((s + j)%nat, x) end).
  { intros s l. revert s. induction l as [|x l IH]; intros s [|j]; simpl; auto; [now rewrite Nat.add_0_r|]. rewrite IH. destruct (nth_error l j); auto. do 2 f_equal. lia. }
  rewrite Q. destruct (nth_error arr i); auto.
Qed.
Lemma writes_sparse {A} (w : nat -> option A) n ws out : Permutation ws (sparse w n) -> (n <= length out)%nat -> (forall i, (n <= i)%nat -> w i = None) ->
  writes ws out = Some (replaced w out).
Proof.
  intros P L Z. destruct (writes_total ws out) as (o & E & Lo).
  { intros i x H. apply (Permutation_in _ P) in H. apply sparse_in in H as (k & H & -> & _). lia. }
  rewrite E. f_equal. apply list_ext. intros i.
  assert (ND : NoDup (map fst ws)) by (eapply Permutation_NoDup; [symmetry; apply Permutation_map; exact P|apply sparse_nodup]).
  rewrite (writes_read ws out o ND E), replaced_nth.
  destruct (w i) as [y|] eqn:W.
  - assert (Hi : (i < n)%nat) by (destruct (Nat.le_gt_cases n i); auto; rewrite Z in W by auto; discriminate).
    assert (I : In (Z.of_nat i, y) ws) by (apply (Permutation_in _ (Permutation_sym P)), sparse_in; eauto).
    destruct (find _ ws) as [[k y']|] eqn:F.
    + apply find_some in F as [F1 F2]. simpl in *. apply Z.eqb_eq in F2. subst k. apply (Permutation_in _ P) in F1. apply sparse_in in F1 as (j & Hj & Hk & Wj).
      assert (j = i) by lia. subst j. rewrite W in Wj. injection Wj as <-.
      destruct (nth_error out i) eqn:O; auto. apply nth_error_None in O. lia.
    + eapply find_none in F; [|exact I]. simpl in F. now rewrite Z.eqb_refl in F.
  - destruct (find _ ws) as [[k y']|] eqn:F.
    + apply find_some in F as [F1 F2]. simpl in *. apply Z.eqb_eq in F2. subst k. apply (Permutation_in _ P) in F1. apply sparse_in in F1 as (j & Hj & Hk & Wj).
      assert (j = i) by lia. subst j. congruence.
    + destruct (nth_error out i); auto.
Qed.

(** ** PutMask *)
Lemma concat_map_concat {A B} (f : A -> list B) (ls : list (list A)) : concat (map f (concat ls)) = concat (map (fun l => concat (map f l)) ls).
Proof. induction ls as [|l ls IH]; simpl; auto. rewrite map_app, concat_app, IH. reflexivity. Qed.

Lemma PutMask_ok ord thr t u strided arr mask vals g : fair ord -> length mask = length arr -> length vals = length arr ->
  (length arr <= 1)%nat \/ strided = false ->
  (forall i x, nth_error mask i = Some true -> nth_error vals i = Some x -> convert_putmask t u x = Some (g x)) ->
  PutMask ord thr t u strided arr mask vals = Some (Some (replaced (masked mask vals g) arr)).
Proof.
  intros Ho Lm Lv Hs H. unfold PutMask. rewrite Lm, Lv, Nat.eqb_refl.
  replace ((length arr <=? 1)%nat || negb strided) with true by (destruct Hs as [Hs| ->]; [apply Nat.leb_le in Hs; now rewrite Hs|now rewrite orb_true_r]).
  cbn [andb].
  set (f := fun i => match masked mask vals g i with Some y => [(Z.of_nat i, y)] | None => [] end).
  rewrite (all_some_map _ (fun call : nat * nat => concat (map f (seq (fst call) (snd call))))).
  - rewrite (writes_sparse (masked mask vals g) (length arr)); auto.
    + eapply perm_trans; [apply Ho|]. unfold sparse. fold f.
      rewrite <- (chunk_calls_seq thr CHUNK (length arr)) by (unfold CHUNK; lia).
      rewrite concat_map_concat, map_map. reflexivity.
    + intros i Hi. unfold masked. destruct (nth_error mask i) eqn:E; auto. apply nth_error_Some_lt in E. lia.
  - intros [s l] Hc. simpl. unfold putmask_rows.
    rewrite (all_some_map _ f); [reflexivity|]. intros i Hi. unfold f, masked.
    assert (B : (i < length arr)%nat).
    { assert (I : In i (concat (map (fun p => seq (fst p) (snd p)) (chunk_calls thr CHUNK (length arr))))).
      { apply in_concat. exists (seq s l). split; auto. apply in_map_iff. exists (s, l). auto. }
      rewrite chunk_calls_seq in I by (unfold CHUNK; lia). apply in_seq in I. lia. }
    destruct (nth_error mask i) as [[]|] eqn:E; auto.
    + destruct (nth_error vals i) as [x|] eqn:V; [now rewrite (H i x)|]. apply nth_error_None in V. lia.
    + apply nth_error_None in E. lia.
Qed.

(** ** HStack *)
Lemma all_some_app {A} (l1 l2 : list (option A)) : all_some (l1 ++ l2) = match all_some l1, all_some l2 with Some a, Some b => Some (a ++ b) | _, _ => None end.
Proof. induction l1 as [|[x|] l1 IH]; simpl; auto. - now destruct (all_some l2). - rewrite IH. destruct (all_some l1), (all_some l2); auto. Qed.
Lemma all_some_len {A} (l : list (option A)) r : all_some l = Some r -> length r = length l.
Proof. revert r. induction l as [|[x|] l IH]; simpl; intros r; try discriminate. - now intros [= <-]. - destruct (all_some l); [|discriminate]. intros [= <-]. simpl. now rewrite IH. Qed.
Definition hstack_items (u : dtype) (arrs : list (dtype * list val)) : list (option val) := concat (map (fun a => map (convert_safe (fst a) u) (snd a)) arrs).
Lemma hstack_all_enum u arrs : forall off, hstack_all u off arrs = option_map (enum 1 off) (all_some (hstack_items u arrs)).
Proof.
  unfold hstack_items. induction arrs as [|a arrs IH]; intros off; simpl; auto. rewrite all_some_app, IH. unfold hstack_writes.
  destruct (all_some (map (convert_safe (fst a) u) (snd a))) as [r|] eqn:E; simpl; auto.
  destruct (all_some (concat _)) as [r'|]; simpl; auto. rewrite enum_app. do 3 f_equal. apply all_some_len in E. rewrite map_length in E. lia.
Qed.
Lemma HStack_ok ord u arrs garbage : fair ord -> length garbage = length (concat (map snd arrs)) ->
  HStack ord u arrs garbage = all_some (hstack_items u arrs).
Proof.
  intros Ho L. unfold HStack. rewrite hstack_all_enum. destruct (all_some (hstack_items u arrs)) as [r|] eqn:E; simpl; auto.
  apply writes_enum; [apply Ho|]. rewrite (all_some_len _ _ E), L. unfold hstack_items.
  clear. induction arrs as [|a arrs IH]; simpl; auto. now rewrite !app_length, map_length, IH.
Qed.

(** ** The common type *)
Definition covered (t : Z) (m : maxes) : bool :=
  if 11 <=? t then t <=? maxfloat m else if Z.odd t || (t =? 0) then t <=? maxint m else t <=? maxuint m.
Definition FLS : list Z := [-1; 11; 12; 13].
Definition INTS : list Z := [-1; 0; 1; 3; 5; 7; 9].
Definition UINTS : list Z := [-1; 2; 4; 6; 8; 10].
Definition upinv (m : maxes) : Prop := aborted m = 0 /\ maxobject m = -1 /\ maxstring m = -1 /\ In (maxfloat m) FLS /\ In (maxint m) INTS /\ In (maxuint m) UINTS.
Lemma range14 t : 0 <= t <= 13 -> t = 0 \/ t = 1 \/ t = 2 \/ t = 3 \/ t = 4 \/ t = 5 \/ t = 6 \/ t = 7 \/ t = 8 \/ t = 9 \/ t = 10 \/ t = 11 \/ t = 12 \/ t = 13.
Proof. lia. Qed.
Lemma upcast_step_inv m t : 0 <= t <= 13 -> upinv m -> upinv (upcast_step m t) /\ covered t (upcast_step m t) = true /\ (forall t', covered t' m = true -> covered t' (upcast_step m t) = true).
Proof.
  intros Ht (A & B & C & D & E & F). destruct m as [mf mi mu ms mo ab]. cbn [maxfloat maxint maxuint maxstring maxobject aborted] in *. subst.
  apply range14 in Ht. unfold upcast_step. 
  repeat (destruct Ht as [Ht|Ht]; [subst t; cbn -[In];
    (split; [unfold upinv; cbn -[In]; repeat split; auto; match goal with |- context [?a <? ?b] => destruct (Z.ltb_spec a b); auto; simpl; tauto end|]; split;
     [unfold covered; cbn; match goal with |- context [?a <? ?b] => destruct (Z.ltb_spec a b); lia end|
      intros t' H; unfold covered in *; cbn in *; match goal with |- context [?a <? ?b] => destruct (Z.ltb_spec a b); auto end;
      destruct (11 <=? t'); [lia|]; destruct (Z.odd t' || (t' =? 0)); lia])|]).
  subst t. cbn -[In].
  (split; [unfold upinv; cbn -[In]; repeat split; auto; match goal with |- context [?a <? ?b] => destruct (Z.ltb_spec a b); auto; simpl; tauto end|]; split;
     [unfold covered; cbn; match goal with |- context [?a <? ?b] => destruct (Z.ltb_spec a b); lia end|
      intros t' H; unfold covered in *; cbn in *; match goal with |- context [?a <? ?b] => destruct (Z.ltb_spec a b); auto end;
      destruct (11 <=? t'); [lia|]; destruct (Z.odd t' || (t' =? 0)); lia]).
Qed.
Lemma upcast_fold types : forall m, (forall t, In t types -> 0 <= t <= 13) -> upinv m ->
  upinv (fold_left upcast_step types m) /\ (forall t, In t types \/ covered t m = true -> covered t (fold_left upcast_step types m) = true).
Proof.
  induction types as [|t types IH]; intros m H I; simpl.
  - split; auto. intros t [[]|]; auto.
  - destruct (upcast_step_inv m t) as (I' & C & K); [apply H; now left|auto|].
    destruct (IH (upcast_step m t)) as (I2 & K2); auto. { intros; apply H; now right. }
    split; auto. intros t' [[->|Hi]|Hc]; apply K2; auto.
Qed.
Definition up_good (t r : Z) : bool :=
  match of_num t, of_num r with
  | Some a, Some b => holds_integers a b || ((bits a =? 64) && negb (is_float a) && is_float b) || ((t =? 8) && (r =? 9))
  | _, _ => false
  end.
Definition up_check : bool :=
  forallb (fun f => forallb (fun i => forallb (fun u => 
    let m := {| maxfloat := f; maxint := i; maxuint := u; maxstring := -1; maxobject := -1; aborted := 0 |} in
    forallb (fun t => negb (covered t m) || up_good t (upcast_result m)) (map Z.of_nat (seq 0 14))) UINTS) INTS) FLS.
Lemma up_check_true : up_check = true. Proof. vm_compute. reflexivity. Qed.
Lemma upcast_ok types t : (forall t, In t types -> 0 <= t <= 13) -> In t types -> up_good t (GetUpcastDtype types) = true.
Proof.
  intros H I. unfold GetUpcastDtype.
  destruct (upcast_fold types {| maxfloat := -1; maxint := -1; maxuint := -1; maxstring := -1; maxobject := -1; aborted := 0 |}) as [(A & B & C & D & E & F) K]; auto.
  { unfold upinv, FLS, INTS, UINTS; simpl; tauto. }
  set (m := fold_left _ _ _) in *. specialize (K t (or_introl I)).
  pose proof up_check_true as G. unfold up_check in G. rewrite forallb_forall in G. specialize (G _ D). rewrite forallb_forall in G. specialize (G _ E).
  rewrite forallb_forall in G. specialize (G _ F). cbv zeta in G. rewrite forallb_forall in G.
  specialize (G t). destruct m as [mf mi mu ms mo ab]. cbn [maxfloat maxint maxuint maxstring maxobject aborted] in *. subst.
  rewrite K in G. simpl in G. apply G. specialize (H t I). clear - H. lia.
Qed.
