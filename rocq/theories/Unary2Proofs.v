(** Proofs about operations on one array: numbers. *)
From Coq Require Import Reals Lra SpecFloat.
From Flocq Require Import Core BinarySingleNaN.
From Verif Require Import RedModel RedProofs.
From Verif Require Import Base Mem MemLemmas Par ConvModel ConvSpec ConvProofs TwoModel TwoSpec TwoProofs Two2Proofs CmpModel CmpSpec CmpProofs Cmp2Proofs MathModel MathSpec MathProofs Math2Proofs Math3Proofs MathFloat UnaryModel UnarySpec UnaryProofs.
Local Open Scope Z_scope.

(** * Rounding to an integer *)
Lemma normalize_int u z s : is_float u = true -> Z.abs z <= 2 ^ prec u ->
  typed u (VF (SpecFloat.binary_normalize (prec u) (emax u) z 0 s)) /\ denotes (VF (SpecFloat.binary_normalize (prec u) (emax u) z 0 s)) (IZR z).
Proof.
  intros F H. destruct (int_representable u z F H) as ([z'|g] & [F' V] & D); [congruence|]. destruct D as [Fg E].
  destruct z as [|p|p]; [now repeat split|..].
  - destruct (normalize_exact u (Z.pos p) g V E) as (A & B & C). split; split; assumption.
  - destruct (normalize_exact u (Z.neg p) g V E) as (A & B & C). split; split; assumption.
Qed.
Definition signed_m (s : bool) (m : positive) : Z := if s then Z.neg m else Z.pos m.
Lemma SF2R_neg s m e : e < 0 -> SF2R radix2 (S754_finite s m e) = (IZR (signed_m s m) / IZR (2 ^ (- e)))%R.
Proof.
  intros E. cbn [SF2R]. unfold F2R. cbn [Fnum Fexp]. replace e with (- (- e)) at 1 by lia. rewrite bpow_opp. rewrite <- (IZR_Zpower radix2 (- e)) by lia.
  now destruct s.
Qed.
Lemma SF2R_pos s m e : 0 <= e -> SF2R radix2 (S754_finite s m e) = IZR (signed_m s m * 2 ^ e).
Proof.
  intros E. cbn [SF2R]. unfold F2R. cbn [Fnum Fexp]. rewrite <- (IZR_Zpower radix2 e) by lia. rewrite <- mult_IZR. now destruct s.
Qed.
Lemma mantissa_bound d s m e : valid_binary (prec d) (emax d) (S754_finite s m e) = true -> Z.pos m < 2 ^ prec d.
Proof.
  intros V. cbn [valid_binary] in V. unfold SpecFloat.bounded in V. apply andb_prop in V as [C _]. unfold SpecFloat.canonical_mantissa in C. apply Zeq_bool_eq in C.
  unfold SpecFloat.fexp in C. pose proof (Zdigits_correct radix2 (Z.pos m)) as [_ D]. rewrite <- Zpos_digits2_pos in D. cbn [Z.abs] in D.
  eapply Z.lt_le_trans; [exact D|]. apply (Zpower_le radix2). lia.
Qed.
(** [rnd n q] is the integer [I r] next to r = n / q *)
Definition rounds (rnd : Z -> Z -> Z) (I : R -> Z -> Prop) : Prop :=
  (forall z, I (IZR z) z) /\ (forall n q, 1 < q -> Z.abs (rnd n q) <= Z.abs n /\ I (IZR n / IZR q)%R (rnd n q)).
Lemma to_integer_ok rnd I d f r : rounds rnd I -> is_float d = true -> valid_binary (prec d) (emax d) f = true -> denotes (VF f) r ->
  typed d (VF (to_integer d rnd f)) /\ exists k, denotes (VF (to_integer d rnd f)) (IZR k) /\ I r k.
Proof.
  intros [R0 R1] F V [Fi <-]. destruct f as [s|s| |s m e]; try discriminate Fi.
  - split; [now split|]. exists 0. split; [now split|]. cbn. apply R0.
  - cbn [to_integer]. destruct (Z.leb_spec 0 e) as [E|E].
    + split; [now split|]. exists (signed_m s m * 2 ^ e). rewrite (SF2R_pos s m e E). split; [|apply R0]. split; [reflexivity|]. apply SF2R_pos. assumption.
    + assert (Q : 1 < 2 ^ (- e)) by (apply Z.pow_gt_1; lia). destruct (R1 (signed_m s m) (2 ^ (- e)) Q) as [B J].
      destruct (normalize_int d (rnd (signed_m s m) (2 ^ (- e))) s F) as [T D].
      { pose proof (mantissa_bound d s m e V). unfold signed_m in *. destruct s; lia. }
      split; [exact T|]. exists (rnd (signed_m s m) (2 ^ (- e))). split; [exact D|]. rewrite SF2R_neg by assumption. exact J.
Qed.
Lemma rounds_floor : rounds n_floor (fun r k => k = Zfloor r).
Proof.
  split; [intros z; now rewrite Zfloor_IZR|]. intros n q Q. unfold n_floor. split; [|rewrite Zfloor_div by lia; reflexivity].
  pose proof (Z.div_mod n q ltac:(lia)). pose proof (Z.mod_pos_bound n q ltac:(lia)). nia.
Qed.
Lemma rounds_ceil : rounds n_ceil (fun r k => k = Zceil r).
Proof.
  split; [intros z; now rewrite Zceil_IZR|]. intros n q Q. unfold n_ceil. split.
  - pose proof (Z.div_mod (- n) q ltac:(lia)). pose proof (Z.mod_pos_bound (- n) q ltac:(lia)). nia.
  - unfold Zceil. f_equal. rewrite <- Zfloor_div by lia. f_equal. rewrite opp_IZR. field. apply IZR_neq. lia.
Qed.
Lemma rounds_trunc : rounds n_trunc (fun r k => k = Ztrunc r).
Proof.
  split; [intros z; now rewrite Ztrunc_IZR|]. intros n q Q. unfold n_trunc. split; [|rewrite Ztrunc_div by lia; reflexivity].
  pose proof (Z.quot_rem n q ltac:(lia)). pose proof (Z.rem_bound_abs n q ltac:(lia)). nia.
Qed.
Lemma half n q k : 0 < q -> Z.abs (2 * (n - k * q)) <= q -> (Rabs (IZR n / IZR q - IZR k) <= 1 / 2)%R.
Proof.
  intros Q H. apply IZR_le in H. rewrite abs_IZR, mult_IZR, minus_IZR, mult_IZR in H. apply IZR_lt in Q.
  replace (IZR n / IZR q - IZR k)%R with (2 * (IZR n - IZR k * IZR q) / (2 * IZR q))%R by (field; lra).
  unfold Rdiv at 1. rewrite Rabs_mult. rewrite (Rabs_pos_eq (/ _)) by (apply Rlt_le, Rinv_0_lt_compat; lra).
  apply Rle_trans with (IZR q * / (2 * IZR q))%R; [apply Rmult_le_compat_r; [apply Rlt_le, Rinv_0_lt_compat; lra|assumption]|].
  right. field. lra.
Qed.
Definition near (r : R) (k : Z) : Prop := (Rabs (r - IZR k) <= 1 / 2)%R.
Lemma near_int z : near (IZR z) z. Proof. unfold near. rewrite Rminus_diag_eq by reflexivity. rewrite Rabs_R0. lra. Qed.
Lemma rounds_away : rounds n_away near.
Proof.
  split; [apply near_int|]. intros n q Q. unfold n_away, near. pose proof (Z.div_mod (2 * Z.abs n + q) (2 * q) ltac:(lia)) as D.
  pose proof (Z.mod_pos_bound (2 * Z.abs n + q) (2 * q) ltac:(lia)) as B. set (k := (2 * Z.abs n + q) / (2 * q)) in *.
  destruct (Z.lt_trichotomy n 0) as [L|[->|L]].
  - rewrite Z.sgn_neg by assumption. split; [nia|]. apply half; [lia|]. nia.
  - cbn [Z.sgn Z.mul Z.abs]. split; [lia|]. apply half; lia.
  - rewrite Z.sgn_pos by assumption. split; [nia|]. apply half; [lia|]. nia.
Qed.
Lemma rounds_even : rounds n_even near.
Proof.
  split; [apply near_int|]. intros n q Q. unfold n_even, near. cbv zeta. pose proof (Z.div_mod n q ltac:(lia)) as D.
  pose proof (Z.mod_pos_bound n q ltac:(lia)) as B. set (k := n / q) in *. set (r := n mod q) in *.
  destruct (Z.ltb_spec (2 * r) q) as [H|H]; [|destruct (Z.ltb_spec q (2 * r)) as [H1|H1]; [|destruct (Z.even k)]];
    (split; [nia|apply half; [lia|nia]]).
Qed.

(** * One item *)
Lemma opp_F2R s m e : F2R (Float radix2 (cond_Zopp (negb s) (Z.pos m)) e) = (- F2R (Float radix2 (cond_Zopp s (Z.pos m)) e))%R.
Proof. rewrite <- F2R_Zopp. f_equal. f_equal. now destruct s. Qed.
Lemma SFopp_R f : SF2R radix2 (SFopp f) = (- SF2R radix2 f)%R.
Proof. destruct f; cbn; try (symmetry; apply Ropp_0). apply opp_F2R. Qed.
Lemma sign_R s m e : Rcompare (SF2R radix2 (S754_finite s m e)) 0 = if s then Lt else Gt.
Proof. destruct s; cbn; [apply Rcompare_Lt, F2R_lt_0|apply Rcompare_Gt, F2R_gt_0]; reflexivity. Qed.
Lemma abs_ok s m e : Rabs (SF2R radix2 (S754_finite s m e)) = SF2R radix2 (S754_finite false m e).
Proof. rewrite abs_SF. reflexivity. Qed.
Lemma f1_ok d s : is_float d = true -> typed d (VF (f1 d s)) /\ denotes (VF (f1 d s)) (if s then -1 else 1).
Proof.
  intros F. unfold f1. assert (B : 1 <= 2 ^ prec d) by (destruct d; cbn; lia).
  destruct (normalize_int d (if s then -1 else 1) s F) as [A D]; [destruct s; cbn; lia|]. split; [exact A|]. now destruct s.
Qed.
(** the relation for an operation with an exact result [g] *)
Lemma result_real o d f y g : real1 o = Some g -> typed d (VF y) -> o <> ROUND -> o <> SQRT ->
  (forall r, denotes (VF f) r -> denotes (VF y) (g r)) -> (f = S754_nan -> y = S754_nan) -> (forall s, f = S754_infinity s -> infinite1 o d s (VF y)) ->
  float_result o d (VF f) (VF y).
Proof.
  intros G T N1 N2 H1 H2 H3. split; [exact T|]. split; [intros g' r G' D; rewrite G in G'; injection G' as <-; now apply H1|].
  split; [easy|]. split; [easy|]. split; [intros E; f_equal; apply H2; congruence|]. intros s E. apply H3. congruence.
Qed.
Ltac fcases := let d := fresh in intros d; try discriminate d; try (injection d; intros; subst); try reflexivity.
Section Item.
  Variables (d : dtype) (f : spec_float).
  Hypothesis (F : is_float d = true) (V : valid_binary (prec d) (emax d) f = true).
  Ltac start G := apply result_real with (g := G); [reflexivity| |easy|easy| | |].
  Lemma abs_result y : y = ABS_F f \/ y = SFabs f -> float_result ABS d (VF f) (VF y).
  Proof.
    intros Y. start Rabs.
    - destruct Y as [-> | ->]; split; try assumption; destruct f as [[]|[]| |[] m e]; cbn in V |- *; assumption.
    - intros r [Fi <-]. destruct f as [s|s| |s m e]; try discriminate Fi.
      + assert (exists s', y = S754_zero s') as [s' ->] by (destruct Y as [-> | ->]; eexists; reflexivity).
        split; [reflexivity|]. cbn [SF2R]. now rewrite Rabs_R0.
      + assert (y = S754_finite false m e) as -> by (destruct Y as [-> | ->]; [now destruct s|reflexivity]).
        split; [reflexivity|]. symmetry. apply abs_ok.
    - intros ->. now destruct Y as [-> | ->].
    - intros s ->. cbn. destruct Y as [-> | ->]; now destruct s.
  Qed.
  Lemma neg_result o y : o = NEG \/ o = NEGATIVE -> y = SFopp f \/ y = SFsub (prec d) (emax d) fz f -> float_result o d (VF f) (VF y).
  Proof.
    intros O Y. assert (N : real1 o = Some Ropp /\ o <> ROUND /\ o <> SQRT) by (destruct O as [-> | ->]; repeat split; discriminate).
    destruct N as (N0 & N1 & N2). apply result_real with (g := Ropp); auto.
    - destruct Y as [-> | ->]; split; try assumption; destruct f as [[]|[]| |[] m e]; cbn in V |- *; assumption.
    - intros r [Fi <-]. destruct f as [s|s| |s m e]; try discriminate Fi.
      + assert (exists s', y = S754_zero s') as [s' ->] by (destruct Y as [-> | ->]; destruct s; eexists; reflexivity).
        split; [reflexivity|]. cbn [SF2R]. now rewrite Ropp_0.
      + assert (y = S754_finite (negb s) m e) as -> by (destruct Y as [-> | ->]; reflexivity).
        split; [reflexivity|]. apply opp_F2R.
    - intros ->. now destruct Y as [-> | ->].
    - intros s ->. destruct O as [-> | ->]; cbn; destruct Y as [-> | ->]; reflexivity.
  Qed.
  Lemma sign_result : float_result SIGN d (VF f) (VF (SIGN_F d f)).
  Proof.
    assert (E : SIGN_F d f = match f with S754_finite s _ _ | S754_infinity s => f1 d s | S754_zero _ => fz | S754_nan => S754_nan end)
      by (destruct f as [[]|[]| |[] m e]; reflexivity).
    rewrite E. clear E. eapply result_real; [reflexivity| |easy|easy| | |].
    - destruct f as [s|s| |s m e]; try (apply f1_ok; assumption); now split.
    - intros r [Fi <-]. destruct f as [s|s| |s m e]; try discriminate Fi.
      + split; [reflexivity|]. cbn [SF2R]. now rewrite Rcompare_Eq by reflexivity.
      + rewrite sign_R. destruct (f1_ok d s F) as [_ D]. now destruct s.
    - now intros ->.
    - intros s ->. cbn [infinite1]. apply f1_ok. exact F.
  Qed.
  Lemma int_nonfinite rnd : is_finite_SF f = false -> to_integer d rnd f = f. Proof. now destruct f. Qed.
  Lemma int_result o rnd g I : rounds rnd I -> (forall r k, I r k -> IZR k = g r) -> real1 o = Some g -> In o [FLOOR; CEIL; TRUNC] ->
    float_result o d (VF f) (VF (to_integer d rnd f)).
  Proof.
    intros Ro HI G O. assert (N : o <> ROUND /\ o <> SQRT) by (destruct O as [<- | [<- | [<- | []]]]; split; discriminate). destruct N as [N1 N2].
    apply result_real with (g := g); auto.
    - destruct (is_finite_SF f) eqn:Fi; [eapply to_integer_ok; eauto; now split|]. rewrite int_nonfinite by assumption. now split.
    - intros r D. destruct (to_integer_ok rnd I d f r Ro F V D) as (_ & k & Dk & Ik). now rewrite <- (HI r k Ik).
    - now intros ->.
    - intros s ->. cbn. destruct O as [<- | [<- | [<- | []]]]; reflexivity.
  Qed.
  Lemma round_result rnd : rounds rnd near -> float_result ROUND d (VF f) (VF (to_integer d rnd f)).
  Proof.
    intros Ro. split.
    { destruct (is_finite_SF f) eqn:Fi; [eapply to_integer_ok; eauto; now split|]. rewrite int_nonfinite by assumption. now split. }
    split; [discriminate|]. split; [intros _ r D; destruct (to_integer_ok rnd near d f r Ro F V D) as (_ & k & Dk & Ik); now exists k|].
    split; [discriminate|]. split; [intros E; injection E as ->; reflexivity|]. intros s E. injection E as ->. reflexivity.
  Qed.
  Lemma sqrt_equiv (x : binary_float (prec d) (emax d)) : SFsqrt (prec d) (emax d) (B2SF x) = B2SF (@Bsqrt (prec d) (emax d) (fmt_prec d) (fmt_emax d) mode_NE x).
  Proof.
    case x as [sx|sx| |sx mx ex Bx]; [now (trivial || case sx).. | ]. case sx; [reflexivity|]. simpl. rewrite B2SF_SF2B.
    set (melz := SFsqrt_core_binary _ _ _ _). case melz as [[mz ez] lz]. apply round_aux_equivF.
  Qed.
  Lemma sqrt_result : float_result SQRT d (VF f) (VF (SQRT_OP d f)).
  Proof.
    unfold SQRT_OP. pose proof (sqrt_equiv (SF2B f V)) as E. rewrite B2SF_SF2B in E.
    split; [split; [exact F|rewrite E; apply valid_binary_B2SF]|]. split; [discriminate|]. split; [discriminate|]. split.
    - intros _ r [Fi Er]. destruct (Rle_dec 0 r) as [P|P].
      + pose proof (Bsqrt_correct (prec d) (emax d) (fmt_prec d) (fmt_emax d) mode_NE (SF2B f V)) as (C1 & C2 & _).
        rewrite B2R_SF2B, Er in C1. split.
        * rewrite E, is_finite_SF_B2SF, C2. destruct f as [s|s| |s m e]; try discriminate Fi; cbn; [reflexivity|]. destruct s; [|reflexivity].
          exfalso. rewrite <- Er in P. apply (Rle_not_lt _ _ P). now apply F2R_lt_0.
        * rewrite E, SF2R_B2SF, C1. reflexivity.
      + destruct f as [s|s| |s m e]; try discriminate Fi; [elim P; rewrite <- Er; cbn; lra|]. destruct s; [reflexivity|].
        elim P. rewrite <- Er. apply F2R_ge_0. cbn. lia.
    - split; [intros X; injection X as ->; reflexivity|]. intros s X. injection X as ->. cbn. now destruct s.
  Qed.
End Item.

(** * Whole arrays *)
Lemma floats_ok lib o d bs : is_float d = true -> float1 o = true -> Forall (typed d) (items bs) ->
  each (ProcessOneInput lib o d bs) bs d (float_result o d).
Proof.
  intros F O T.
  assert (H : exists k, CheckMathOpOneInput lib o d = Some (d, k) /\ kernel_ok d (float_result o d) k); [|destruct H as (k & C & K); eapply process_ok; eauto].
  assert (X : forall P : val -> Prop, (forall f, valid_binary (prec d) (emax d) f = true -> P (VF f)) -> forall x, typed d x -> P x).
  { intros P H x Tx. destruct (float_typed d x F Tx) as (f & -> & V). auto. }
  assert (S : forall (h : spec_float -> spec_float), (forall f, valid_binary (prec d) (emax d) f = true -> float_result o d (VF f) (VF (h f))) ->
    kernel_ok d (float_result o d) (Slow (vF h))).
  { intros h H. cbn [kernel_ok]. apply X. intros f V. now apply H. }
  assert (Q : forall (h h' : spec_float -> spec_float), (forall f, valid_binary (prec d) (emax d) f = true -> float_result o d (VF f) (VF (h f))) ->
    (forall f, valid_binary (prec d) (emax d) f = true -> float_result o d (VF f) (VF (h' f))) ->
    kernel_ok d (float_result o d) (Fast true (lanes_of d) (vF h) (regF (map h')))).
  { intros h h' H H'. split; [apply lanes_pos|]. split; [apply X; intros f V; now apply H|]. intros r _ R. apply regF_ok with d; [|assumption].
    apply X. intros f V. now apply H'. }
  assert (I1 : forall f, valid_binary (prec d) (emax d) f = true -> float_result FLOOR d (VF f) (VF (FLOOR_OP d f))).
  { intros f V. eapply int_result; eauto using rounds_floor; [|reflexivity|cbn; tauto]. cbn. now intros r k ->. }
  assert (I2 : forall f, valid_binary (prec d) (emax d) f = true -> float_result CEIL d (VF f) (VF (CEIL_OP d f))).
  { intros f V. eapply int_result; eauto using rounds_ceil; [|reflexivity|cbn; tauto]. cbn. now intros r k ->. }
  assert (I3 : forall f, valid_binary (prec d) (emax d) f = true -> float_result TRUNC d (VF f) (VF (TRUNC_OP d f))).
  { intros f V. eapply int_result; eauto using rounds_trunc; [|reflexivity|cbn; tauto]. cbn. now intros r k ->. }
  destruct o; try discriminate O; destruct d; try discriminate F; eexists; (split; [reflexivity|]);
    first [apply S|apply Q]; intros f V; auto using abs_result, neg_result, sign_result, sqrt_result;
    (apply round_result; [reflexivity|exact V|]); first [exact rounds_away|exact rounds_even].
Qed.
Lemma ints_ok lib o d bs g : int1 d o = Some g -> Forall (typed d) (items bs) ->
  each (ProcessOneInput lib o d bs) bs d (fun x y => forall z, x = VI z -> residue d (g z) y).
Proof.
  intros G T. set (P := fun x y => forall z, x = VI z -> residue d (g z) y).
  assert (F : is_float d = false) by (destruct d; try reflexivity; destruct o; discriminate G).
  assert (H : exists k, CheckMathOpOneInput lib o d = Some (d, k) /\ kernel_ok d P k); [|destruct H as (k & C & K); eapply process_ok; eauto].
  assert (X : forall Q : val -> Prop, (forall z, lo d <= z <= hi d -> Q (VI z)) -> forall x, typed d x -> Q x).
  { intros Q H x Tx. destruct (int_typed d x F Tx) as (z & -> & V). auto. }
  assert (S : forall (h : Z -> Z), (forall z, lo d <= z <= hi d -> residue d (g z) (VI (h z))) -> kernel_ok d P (Slow (vZ h))).
  { intros h H. cbn [kernel_ok]. apply X. intros z V z' E. injection E as <-. now apply H. }
  assert (Q : forall (h h' : Z -> Z), (forall z, lo d <= z <= hi d -> residue d (g z) (VI (h z))) ->
    (forall z, lo d <= z <= hi d -> residue d (g z) (VI (h' z))) -> kernel_ok d P (Fast true (lanes_of d) (vZ h) (regZ (map h')))).
  { intros h h' H H'. split; [apply lanes_pos|]. split; [apply X; intros z V z' E; injection E as <-; now apply H|]. intros r _ R. apply regZ_ok with d; [|assumption].
    apply X. intros z V z' E. injection E as <-. now apply H'. }
  assert (W : d <> Bool -> forall z z', z = z' -> residue d z (VI (wrapT d z'))) by (intros B z z' <-; apply put_residue; auto; reflexivity).
  assert (B : d <> Bool -> forall z, lo d <= z <= hi d -> residue d (Z.sgn z) (VI (SIGN_Z z))).
  { intros B z V. assert (E : SIGN_Z z = Z.sgn z) by (unfold SIGN_Z; destruct z; reflexivity). rewrite E. exists (Z.sgn z). split; [reflexivity|]. split; [|reflexivity].
    split; [assumption|]. clear - V B. destruct z; cbn [Z.sgn]; destruct d; cbn in *; lia || congruence. }
  destruct o; try (destruct d; discriminate G); destruct d; try discriminate G; injection G as <-; eexists; (split; [reflexivity|]);
    first [apply S|apply Q]; intros z V; try (apply B; [discriminate|exact V]);
    try (apply W; [discriminate|]; lia); unfold ABS_Z, INVERT_Z; try (apply W; [discriminate|]; try destruct (Z.ltb_spec z 0); lia).
  cbn in V. assert (z = 0 \/ z = 1) as [-> | ->] by lia; [exists 1|exists 0]; (split; [reflexivity|split; [split; [reflexivity|cbn; lia]|reflexivity]]).
Qed.
Lemma doubles_ok lib o d bs : doubles o = true -> In d [I32; U32; I64; U64] -> Forall (typed d) (items bs) ->
  each (ProcessOneInput lib o d bs) bs F64
    (fun x y => forall z, x = VI z -> (d = U64 -> z < 2 ^ 63) -> exists f, denotes (VF f) (nearest F64 (IZR z)) /\ typed F64 (VF f) /\ y = VF (library_of lib o f)).
Proof.
  intros O D T.
  assert (N : forall z z' h, z' = z -> Z.abs z <= 2 ^ 64 -> exists f, denotes (VF f) (nearest F64 (IZR z)) /\ typed F64 (VF f) /\ VF (h (dbl z')) = VF (h f)).
  { intros z z' h -> B. destruct (normalize_nearest F64 z B) as (A1 & A2 & A3). exists (dbl z). split; [split; auto|]. split; [split; auto|reflexivity]. }
  destruct D as [<- | [<- | [<- | [<- | []]]]]; destruct o; try discriminate O; (eapply process_ok; [reflexivity| |exact T]);
    cbn [kernel_ok]; intros x X z -> U; destruct X as [_ B]; cbn in B; cbn [as_z]; apply N; try lia; apply wrap_id; try lia; split; try lia; now apply U.
Qed.
Lemma Forall2_imp {A B} (P Q : A -> B -> Prop) l1 l2 : (forall x y, P x y -> Q x y) -> Forall2 P l1 l2 -> Forall2 Q l1 l2.
Proof. intros H. induction 1; constructor; auto. Qed.
Lemma sqrt_ints_ok lib d bs : In d [I32; U32; I64; U64] -> Forall (typed d) (items bs) ->
  each (ProcessOneInput lib SQRT d bs) bs F64
    (fun x y => forall z, x = VI z -> 0 <= z < 2 ^ 63 -> typed F64 y /\ denotes y (nearest F64 (sqrt (nearest F64 (IZR z))))).
Proof.
  intros D T. destruct (doubles_ok lib SQRT d bs eq_refl D T) as (ys & E & H). exists ys. split; [assumption|].
  eapply Forall2_imp; [|exact H]. intros x y P z -> B. destruct (P z eq_refl (fun _ => proj2 B)) as (f & Df & Tf & ->). destruct Tf as [Ff Vf].
  destruct (sqrt_result F64 f Ff Vf) as (S1 & _ & _ & S2 & _). split; [exact S1|]. specialize (S2 eq_refl _ Df).
  destruct (Rle_dec 0 (nearest F64 (IZR z))) as [L|L]; [exact S2|]. elim L. rewrite <- (nearest_int F64 0) by (cbn; lia). apply nearest_le. apply IZR_le. lia.
Qed.
Lemma int_invalid lib o d bs : In o [ABS; NEG; NEGATIVE] -> is_signed d = true -> Forall (typed d) (items bs) ->
  each (ProcessOneInput lib o d bs) bs d (fun x y => invalid d = Some x -> y = x).
Proof.
  intros O S T. assert (exists g, int1 d o = Some g /\ forall z, invalid d = Some (VI z) -> g z = - z) as (g & G & HG).
  { destruct O as [<- | [<- | [<- | []]]]; destruct d; try discriminate S; eexists; (split; [reflexivity|]); intros z E; injection E as <-; reflexivity. }
  destruct (ints_ok lib o d bs g G T) as (ys & E & H). exists ys. split; [assumption|]. eapply Forall2_imp; [|exact H]. intros x y P I.
  assert (exists z, x = VI z) as [z ->] by (destruct d; try discriminate S; injection I as <-; eexists; reflexivity).
  destruct (P z eq_refl) as (k & -> & [_ B] & C). rewrite (HG z I) in C. f_equal. destruct d; try discriminate S; injection I as <-; cbn in B, C;
  match type of C with _ = ?c => let c' := eval compute in c in change c with c' in C end;
  Z.div_mod_to_equations; lia.
Qed.
Lemma library_floats lib o d bs : In o [LOG; LOG10; EXP; EXP2] -> is_float d = true -> Forall (typed d) (items bs) ->
  each (ProcessOneInput lib o d bs) bs d (fun x y => exists f, x = VF f /\ y = VF (lib o d f)).
Proof.
  intros O F T. assert (X : forall x, typed d x -> exists f, x = VF f) by (intros x Tx; destruct (float_typed d x F Tx) as (f & -> & _); eauto).
  destruct O as [<- | [<- | [<- | [<- | []]]]]; destruct d; try discriminate F; (eapply process_ok; [reflexivity| |exact T]);
    cbn [kernel_ok]; intros x Tx; destruct (X x Tx) as [f ->]; now exists f.
Qed.
