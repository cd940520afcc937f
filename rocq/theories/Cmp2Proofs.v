(** Comparisons: types, values, and the results. *)
From Coq Require Import Reals SpecFloat Lra.
From Flocq Require Import Core BinarySingleNaN.
From Verif Require Import RedModel RedProofs.
From Verif Require Import Base Mem MemLemmas Par ConvModel ConvSpec ConvProofs TwoModel TwoSpec TwoProofs Two2Proofs CmpModel CmpSpec CmpProofs.
Local Open Scope Z_scope.

Definition vcmp (o : cop) (x y : val) : bool :=
  match x, y with VI a, VI b => COMP_Z o a b | VF f, VF g => COMP_F o f g | _, _ => false end.

(** ** Reading items *)
Lemma COMP_wrap b o x y : 0 < b -> eq_ne o = true -> 0 <= x < 2 ^ b -> 0 <= y < 2 ^ b -> COMP_Z o (wrap b x) (wrap b y) = COMP_Z o x y.
Proof.
  intros Hb E Hx Hy. assert (H : (wrap b x =? wrap b y) = (x =? y)).
  { destruct (Z.eqb_spec x y) as [->|N]; [apply Z.eqb_refl|]. apply Z.eqb_neq. intros W. apply N.
    unfold wrap in W. rewrite !Z.mod_small in W by assumption. destruct (_ <? _), (_ <? _); lia. }
  destruct o; try discriminate; cbn; now rewrite H.
Qed.

Lemma kernel_same o m t d : 0 <= t <= 12 -> of_num t = Some d -> exists k g, GetComparisonOp o m t t = Some k
  /\ (forall xs ys r, apply2 g m xs ys = Some r -> k m xs ys = Some r) /\ (forall x y, typed d x -> typed d y -> g x y = b2z (vcmp o x y)).
Proof.
  intros B E. pose proof (in13 t B) as I. unfold GetComparisonOp. rewrite Z.eqb_refl. cbn [negb]. rewrite andb_false_r. cbn [andb].
  replace (match m with First => t | _ => t end) with t by now destruct m.
  assert (SV : forall b w v, (0 < w)%nat -> 0 < b -> lanewise w v (fun x y => b2z (COMP_Z o x y)) -> (forall z, typed d (VI z) -> - 2 ^ (b - 1) <= z < 2 ^ (b - 1)) -> is_float d = false ->
    exists k g, Some (CompareVec w (as_i b) v (COMP_Z o)) = Some k /\ (forall xs ys r, apply2 g m xs ys = Some r -> k m xs ys = Some r) /\ (forall x y, typed d x -> typed d y -> g x y = b2z (vcmp o x y))).
  { intros b w v W Hb L R F. eexists. exists (fun x y => b2z (COMP_Z o (as_i b x) (as_i b y))). split; [reflexivity|]. split; [intros; now apply CompareVec_apply|].
    intros x y Tx Ty. destruct (typed_int d x F Tx) as [a ->]. destruct (typed_int d y F Ty) as [c ->]. cbn [as_i vcmp]. now rewrite !wrap_id by auto. }
  assert (UV : forall b w v, (0 < w)%nat -> 0 < b -> eq_ne o = true -> lanewise w v (fun x y => b2z (COMP_Z o x y)) -> (forall z, typed d (VI z) -> 0 <= z < 2 ^ b) -> is_float d = false ->
    exists k g, Some (CompareVec w (as_i b) v (COMP_Z o)) = Some k /\ (forall xs ys r, apply2 g m xs ys = Some r -> k m xs ys = Some r) /\ (forall x y, typed d x -> typed d y -> g x y = b2z (vcmp o x y))).
  { intros b w v W Hb En L R F. eexists. exists (fun x y => b2z (COMP_Z o (as_i b x) (as_i b y))). split; [reflexivity|]. split; [intros; now apply CompareVec_apply|].
    intros x y Tx Ty. destruct (typed_int d x F Tx) as [a ->]. destruct (typed_int d y F Ty) as [c ->]. cbn [as_i vcmp]. now rewrite COMP_wrap by auto. }
  assert (UA : forall b, (forall z, typed d (VI z) -> 0 <= z < 2 ^ b) -> is_float d = false ->
    exists k g, Some (CompareAny (as_u b) (COMP_Z o)) = Some k /\ (forall xs ys r, apply2 g m xs ys = Some r -> k m xs ys = Some r) /\ (forall x y, typed d x -> typed d y -> g x y = b2z (vcmp o x y))).
  { intros b R F. eexists. exists (fun x y => b2z (COMP_Z o (as_u b x) (as_u b y))). split; [reflexivity|]. split; [intros; now apply CompareAny_apply|].
    intros x y Tx Ty. destruct (typed_int d x F Tx) as [a ->]. destruct (typed_int d y F Ty) as [c ->]. cbn [as_u vcmp]. now rewrite !Z.mod_small by auto. }
  assert (FV : forall w, (0 < w)%nat -> is_float d = true ->
    exists k g, Some (CompareVec w as_f (fp_lut w o) (COMP_F o)) = Some k /\ (forall xs ys r, apply2 g m xs ys = Some r -> k m xs ys = Some r) /\ (forall x y, typed d x -> typed d y -> g x y = b2z (vcmp o x y))).
  { intros w W F. eexists. exists (fun x y => b2z (COMP_F o (as_f x) (as_f y))). split; [reflexivity|]. split; [intros; apply CompareVec_apply; auto using fp_lut_lane|].
    intros x y Tx Ty. destruct x as [|f]; [destruct Tx; congruence|]. destruct y as [|g]; [destruct Ty; congruence|]. reflexivity. }
  unfold CompareFloat, CompareDouble, CompareInt64, CompareInt32S, CompareInt32, CompareInt8, CompareInt16 in *.
  cbn [In] in I.
  repeat (destruct I as [<-|I]; [injection E as <-; cbn [Z.eqb Pos.eqb orb]|]); try destruct I.
  - (* bool *) apply SV; [lia|lia|apply COMP_mask_lane|cbn; intros; lia|reflexivity].
  - apply SV; [lia|lia|apply COMP_mask_lane|cbn; intros; lia|reflexivity].
  - destruct (eq_ne o) eqn:En; [apply UV; [lia|lia|reflexivity|apply COMP_mask_lane|cbn; intros; lia|reflexivity]|apply UA; [cbn; intros; lia|reflexivity]].
  - apply SV; [lia|lia|apply COMP16_lane|cbn; intros; lia|reflexivity].
  - destruct (eq_ne o) eqn:En; [apply UV; [lia|lia|reflexivity|apply COMP16_lane|cbn; intros; lia|reflexivity]|apply UA; [cbn; intros; lia|reflexivity]].
  - destruct o; (apply SV; [lia|lia|first [apply COMP32i_EQS_lane|apply COMP_lut_lane]|cbn; intros; lia|reflexivity]).
  - destruct (eq_ne o) eqn:En; [apply UV; [lia|lia|reflexivity|apply COMP_lut_lane|cbn; intros; lia|reflexivity]|apply UA; [cbn; intros; lia|reflexivity]].
  - apply SV; [lia|lia|apply COMP_lut_lane|cbn; intros; lia|reflexivity].
  - destruct (eq_ne o) eqn:En; [apply UV; [lia|lia|reflexivity|apply COMP_lut_lane|cbn; intros; lia|reflexivity]|apply UA; [cbn; intros; lia|reflexivity]].
  - apply SV; [lia|lia|apply COMP_lut_lane|cbn; intros; lia|reflexivity].
  - destruct (eq_ne o) eqn:En; [apply UV; [lia|lia|reflexivity|apply COMP_lut_lane|cbn; intros; lia|reflexivity]|apply UA; [cbn; intros; lia|reflexivity]].
  - apply FV; [lia|reflexivity].
  - apply FV; [lia|reflexivity].
Qed.

(** ** int64 and uint64 *)
Lemma testbit63_neg x : - 2 ^ 63 <= x < 2 ^ 63 -> Z.testbit x 63 = (x <? 0).
Proof.
  intros H. destruct (Z.ltb_spec x 0).
  - rewrite Z.bits_opp || idtac. rewrite <- (Z.opp_involutive x). rewrite Z.bits_opp by lia. rewrite Z.bits_above_log2; [reflexivity|lia|].
    destruct (Z.eqb_spec (Z.pred (- x)) 0) as [->|N]; [cbn; lia|]. apply Z.log2_lt_pow2; lia.
  - destruct (Z.eqb_spec x 0) as [->|N]; [reflexivity|]. rewrite Z.bits_above_log2; [reflexivity|lia|]. apply Z.log2_lt_pow2; lia.
Qed.
Lemma testbit63_pos x : 0 <= x < 2 ^ 64 -> Z.testbit x 63 = (2 ^ 63 <=? x).
Proof.
  intros H. rewrite Z.testbit_odd, Z.shiftr_div_pow2 by lia.
  destruct (Z.leb_spec (2 ^ 63) x).
  - replace (x / 2 ^ 63) with 1; [reflexivity|]. apply Z.div_unique with (x - 2 ^ 63); lia.
  - now rewrite Z.div_small by lia.
Qed.
Lemma COMP_int64_ok o x y : - 2 ^ 63 <= x < 2 ^ 63 -> 0 <= y < 2 ^ 64 -> COMP_int64 o x (wrap 64 y) = COMP_Z o x y.
Proof.
  intros Hx Hy. unfold COMP_int64, top. rewrite Z.lor_spec.
  assert (Ty : Z.testbit (wrap 64 y) 63 = (2 ^ 63 <=? y)).
  { destruct (Z.leb_spec (2 ^ 63) y).
    - rewrite wrap_unsigned by (cbn; lia). rewrite testbit63_neg by lia. apply Z.ltb_lt. lia.
    - rewrite wrap_id by (cbn; lia). rewrite testbit63_neg by lia. apply Z.ltb_ge. lia. }
  rewrite Ty, testbit63_neg by assumption.
  destruct (Z.ltb_spec x 0); cbn [orb].
  - destruct o; cbn; try (symmetry; first [apply Z.eqb_neq; lia | apply Z.ltb_lt; lia | apply Z.leb_le; lia | apply Z.ltb_ge; lia | apply Z.leb_gt; lia | apply negb_true_iff, Z.eqb_neq; lia]).
  - destruct (Z.leb_spec (2 ^ 63) y); cbn [orb].
    + destruct o; cbn; try (symmetry; first [apply Z.eqb_neq; lia | apply Z.ltb_lt; lia | apply Z.leb_le; lia | apply Z.ltb_ge; lia | apply Z.leb_gt; lia | apply negb_true_iff, Z.eqb_neq; lia]).
    + now rewrite wrap_id by (cbn; lia).
Qed.
Lemma COMP_uint64_ok o x y : 0 <= x < 2 ^ 64 -> - 2 ^ 63 <= y < 2 ^ 63 -> COMP_uint64 o x (y mod 2 ^ 64) = COMP_Z o x y.
Proof.
  intros Hx Hy. unfold COMP_uint64, top. rewrite Z.lor_spec.
  assert (Ym : y < 0 -> y mod 2 ^ 64 = y + 2 ^ 64) by (intros; symmetry; apply (Z.mod_unique y (2 ^ 64) (-1)); lia).
  assert (Ty : Z.testbit (y mod 2 ^ 64) 63 = (y <? 0)).
  { rewrite testbit63_pos by (apply Z.mod_pos_bound; lia). destruct (Z.ltb_spec y 0).
    - rewrite Ym by assumption. apply Z.leb_le. lia.
    - rewrite Z.mod_small by lia. apply Z.leb_gt. lia. }
  rewrite Ty, testbit63_pos by assumption.
  destruct (Z.ltb_spec y 0); [rewrite orb_true_r|rewrite orb_false_r; destruct (Z.leb_spec (2 ^ 63) x)].
  - destruct o; cbn; try (symmetry; first [apply Z.eqb_neq; lia | apply Z.ltb_lt; lia | apply Z.leb_le; lia | apply Z.ltb_ge; lia | apply Z.leb_gt; lia | apply negb_true_iff, Z.eqb_neq; lia]).
  - destruct o; cbn; try (symmetry; first [apply Z.eqb_neq; lia | apply Z.ltb_lt; lia | apply Z.leb_le; lia | apply Z.ltb_ge; lia | apply Z.leb_gt; lia | apply negb_true_iff, Z.eqb_neq; lia]).
  - now rewrite Z.mod_small by lia.
Qed.
Lemma kernel_special o m t1 t2 d1 d2 : m <> First -> of_num t1 = Some d1 -> of_num t2 = Some d2 ->
  long_signed t1 /\ long_unsigned t2 \/ long_unsigned t1 /\ long_signed t2 /\ eq_ne o = false ->
  exists k g, GetComparisonOp o m t1 t2 = Some k
  /\ (forall xs ys r, apply2 g m xs ys = Some r -> k m xs ys = Some r) /\ (forall x y, typed d1 x -> typed d2 y -> g x y = b2z (vcmp o x y)).
Proof.
  intros M E1 E2 C. unfold long_signed, long_unsigned in C. cbn [In] in C.
  assert (A : forall rd f, exists k g, Some (CompareAny rd f) = Some k /\ (forall xs ys r, apply2 g m xs ys = Some r -> k m xs ys = Some r) /\ (forall x y, g x y = b2z (f (rd x) (rd y)))).
  { intros rd f. eexists. exists (fun x y => b2z (f (rd x) (rd y))). split; [reflexivity|]. split; [intros; now apply CompareAny_apply|reflexivity]. }
  destruct C as [[S U]|(U & S & En)].
  - assert (G : GetComparisonOp o m t1 t2 = Some (CompareAny (as_i 64) (COMP_int64 o))).
    { destruct S as [<-|[<-|[]]], U as [<-|[<-|[]]]; destruct m; try contradiction; reflexivity. }
    assert (D : d1 = I64 /\ d2 = U64) by (destruct S as [<-|[<-|[]]], U as [<-|[<-|[]]]; injection E1 as <-; injection E2 as <-; auto). destruct D as [-> ->].
    rewrite G. destruct (A (as_i 64) (COMP_int64 o)) as (k & g & H1 & H2 & H3). exists k, g. split; [assumption|]. split; [assumption|].
    intros x y Tx Ty. rewrite H3. destruct (typed_int I64 x eq_refl Tx) as [a ->]. destruct (typed_int U64 y eq_refl Ty) as [b ->]. cbn [as_i vcmp].
    destruct Tx as [_ Tx]. destruct Ty as [_ Ty]. cbn in Tx, Ty. rewrite (wrap_id 64 a) by (cbn; lia). now rewrite COMP_int64_ok by lia.
  - assert (G : GetComparisonOp o m t1 t2 = Some (CompareAny (as_u 64) (COMP_uint64 o))).
    { destruct S as [<-|[<-|[]]], U as [<-|[<-|[]]]; destruct m; try contradiction; unfold GetComparisonOp; cbn; now rewrite En. }
    assert (D : d1 = U64 /\ d2 = I64) by (destruct S as [<-|[<-|[]]], U as [<-|[<-|[]]]; injection E1 as <-; injection E2 as <-; auto). destruct D as [-> ->].
    rewrite G. destruct (A (as_u 64) (COMP_uint64 o)) as (k & g & H1 & H2 & H3). exists k, g. split; [assumption|]. split; [assumption|].
    intros x y Tx Ty. rewrite H3. destruct (typed_int U64 x eq_refl Tx) as [a ->]. destruct (typed_int I64 y eq_refl Ty) as [b ->]. cbn [as_u vcmp].
    destruct Tx as [_ Tx]. destruct Ty as [_ Ty]. cbn in Tx, Ty. rewrite (Z.mod_small a) by lia. now rewrite COMP_uint64_ok by lia.
Qed.

(** ** The whole comparison *)
Lemma apply2_ext {A} (f g : val -> val -> A) m xs ys : (forall x y, In x xs -> In y ys -> f x y = g x y) -> apply2 f m xs ys = apply2 g m xs ys.
Proof.
  intros H. destruct m; cbn.
  - now rewrite (map2_ext f g).
  - destruct xs as [|x [|]]; auto. f_equal. apply map_ext_in. intros y I. apply H; cbn; auto.
  - destruct ys as [|y [|]]; auto. f_equal. apply map_ext_in. intros x I. apply H; cbn; auto.
Qed.
Lemma Compare_run ord thr o a b garbage p d1 d2 l : fair ord -> CheckInputs true false a b = Some p ->
  (exists k g, GetComparisonOp o (mode p) (ty1 p) (ty2 p) = Some k /\ (forall xs ys r, apply2 g (mode p) xs ys = Some r -> k (mode p) xs ys = Some r)
     /\ (forall x y, typed d1 x -> typed d2 y -> g x y = b2z (vcmp o x y))) ->
  Forall (typed d1) (in1 p) -> Forall (typed d2) (in2 p) ->
  apply2 (fun x y => b2z (vcmp o x y)) (mode p) (in1 p) (in2 p) = Some l -> length garbage = length l -> Compare ord thr o a b garbage = Done l.
Proof.
  intros Ho E (k & g & G & K & V) T1 T2 R L. unfold Compare. rewrite E, G. apply (WorkTwo_apply g); auto.
  rewrite <- R. apply apply2_ext. intros x y Ix Iy. apply V; [eapply Forall_forall in T1|eapply Forall_forall in T2]; eauto.
Qed.

Lemma vcmp_Z o x y : truth (rel o (x ?= y)) (b2z (vcmp o (VI x) (VI y))).
Proof.
  unfold truth. cbn [vcmp]. destruct o; cbn [rel COMP_Z].
  - destruct (Z.eqb_spec x y); cbn; [left|right]; (split; [reflexivity|]); rewrite Z.compare_eq_iff; auto.
  - destruct (Z.eqb_spec x y); cbn; [right|left]; (split; [reflexivity|]); rewrite Z.compare_eq_iff; auto.
  - destruct (Z.ltb_spec y x); cbn; [left|right]; (split; [reflexivity|]); rewrite Z.compare_gt_iff; lia.
  - destruct (Z.leb_spec y x); cbn; [left|right]; (split; [reflexivity|]); rewrite Z.compare_lt_iff; lia.
  - destruct (Z.ltb_spec x y); cbn; [left|right]; (split; [reflexivity|]); rewrite Z.compare_lt_iff; lia.
  - destruct (Z.leb_spec x y); cbn; [left|right]; (split; [reflexivity|]); rewrite Z.compare_gt_iff; lia.
Qed.
Lemma vcmp_F o f g : truth (ieee o f g) (b2z (vcmp o (VF f) (VF g))).
Proof.
  unfold truth, ieee. cbn [vcmp]. 
  assert (S : SFcompare g f = match SFcompare f g with Some c => Some (CompOpp c) | None => None end).
  { clear o. destruct f as [[]|[]| |[] m e], g as [[]|[]| |[] m' e']; try reflexivity; cbn; rewrite ?(Z.compare_antisym e e');
      destruct (e ?= e'); cbn; try reflexivity; change (Pos.compare_cont Eq m' m) with (m' ?= m)%positive; change (Pos.compare_cont Eq m m') with (m ?= m')%positive;
      rewrite ?(Pos.compare_antisym m m'), ?CompOpp_involutive; reflexivity. }
  destruct o; cbn [COMP_F rel]; unfold SFeqb, SFltb, SFleb; rewrite ?S; destruct (SFcompare f g) as [[]|]; cbn; 
    first [left; split; [reflexivity|]; first [reflexivity|discriminate] | right; split; [reflexivity|]; first [discriminate | intros H; apply H; reflexivity | intros H; now apply H]].
Qed.

Lemma rel_dec o c : rel o c \/ ~ rel o c.
Proof. destruct o, c; cbn; first [left; first [reflexivity|discriminate] | right; first [discriminate | intros H; now apply H]]. Qed.
Lemma COMP_c o (x y : spec_float) c : SFcompare x y = Some c -> truth (rel o c) (b2z (COMP_F o x y)).
Proof. intros E. pose proof (vcmp_F o x y) as H. unfold ieee in H. rewrite E in H. exact H. Qed.
Lemma SFcompare_R d f g r s : typed d (VF f) -> typed d (VF g) -> denotes (VF f) r -> denotes (VF g) s -> SFcompare f g = Some (Rcompare r s).
Proof.
  intros [_ Vf] [_ Vg] [Ff <-] [Fg <-].
  pose proof (Bcompare_correct (prec d) (emax d) (SF2B f Vf) (SF2B g Vg)) as H. rewrite !is_finite_SF2B in H. specialize (H Ff Fg).
  unfold Bcompare in H. rewrite !B2SF_SF2B, !B2R_SF2B in H. exact H.
Qed.
Lemma Rcompare_Z x y : Rcompare (IZR x) (IZR y) = (x ?= y). Proof. apply Rcompare_IZR. Qed.
Lemma vcmp_R o d x y r s : typed d x -> typed d y -> denotes x r -> denotes y s -> truth (rel o (Rcompare r s)) (b2z (vcmp o x y)).
Proof.
  intros Tx Ty Dx Dy. destruct x as [a|f], y as [b|g]; cbn in Tx, Ty; try (destruct Tx, Ty; congruence).
  - cbn in Dx, Dy. subst r s. rewrite Rcompare_Z. apply vcmp_Z.
  - cbn [vcmp]. apply COMP_c. now apply (SFcompare_R d).
Qed.

(** ** uint64 and a small signed type: both become float64 *)
Lemma nearest_int u z : is_float u = true -> Z.abs z <= 2 ^ prec u -> nearest u (IZR z) = IZR z.
Proof.
  intros F H. destruct (int_representable u z F H) as (y & Ty & Dy). destruct y as [w|f]; [destruct Ty; congruence|].
  destruct Ty as [_ V]. destruct Dy as [Fi D]. unfold nearest. apply round_generic; [apply valid_rnd_N|].
  rewrite <- D. rewrite <- (B2R_SF2B (prec u) (emax u) f V). apply generic_format_B2R.
Qed.
Lemma nearest_le u r s : (r <= s)%R -> (nearest u r <= nearest u s)%R.
Proof. intros H. unfold nearest. pose proof (fexp_correct (prec u) (emax u) (fmt_prec u)) as HV. apply round_le; auto with typeclass_instances. Qed.
Lemma nearest_cmp s z : Z.abs s < 2 ^ 52 -> Rcompare (nearest F64 (IZR s)) (nearest F64 (IZR z)) = (s ?= z).
Proof.
  intros H. rewrite nearest_int by (cbn; lia). destruct (Z.compare_spec s z) as [->|L|G].
  - rewrite nearest_int by (cbn; lia). now rewrite Rcompare_Z, Z.compare_refl.
  - apply Rcompare_Lt. apply Rlt_le_trans with (IZR (s + 1)); [apply IZR_lt; lia|].
    rewrite <- (nearest_int F64 (s + 1)) by (cbn; lia). apply nearest_le, IZR_le. lia.
  - apply Rcompare_Gt. apply Rle_lt_trans with (IZR (s - 1)); [|apply IZR_lt; lia].
    rewrite <- (nearest_int F64 (s - 1)) by (cbn; lia). apply nearest_le, IZR_le. lia.
Qed.
Lemma nearest_cmp' s z : Z.abs s < 2 ^ 52 -> Rcompare (nearest F64 (IZR z)) (nearest F64 (IZR s)) = (z ?= s).
Proof. intros H. rewrite Rcompare_sym, nearest_cmp by assumption. now rewrite <- Z.compare_antisym. Qed.

Lemma conv_nearest d zs : is_float d = false -> Forall (plain d) (map VI zs) -> exists fs, all_some (map (convert_safe d F64) (map VI zs)) = Some fs
  /\ Forall2 (fun z y => typed F64 y /\ denotes y (nearest F64 (IZR z))) zs fs.
Proof.
  intros F. induction zs as [|z zs IH]; cbn [map]; intros P; [now exists []|]. inversion P as [|? ? [T N] P']; subst.
  destruct (IH P') as (fs & E & H). destruct (convert_nearest d F64 z F eq_refl T N) as (f & Ef & Tf & Df).
  exists (VF f :: fs). cbn [all_some]. rewrite Ef, E. split; [reflexivity|]. now constructor.
Qed.

(** ** Results *)
Lemma answers_two r o (xs ys : list val) (P : nat -> Prop) : length xs = length ys ->
  r = Done (map2 (fun x y => b2z (vcmp o x y)) xs ys) ->
  (forall i x y, nth_error xs i = Some x -> nth_error ys i = Some y -> truth (P i) (b2z (vcmp o x y))) -> answers r (length xs) P.
Proof.
  intros L E H. eexists. split; [exact E|]. split; [now apply map2_length|]. intros i I.
  rewrite map2_nth by assumption. destruct (nth_error xs i) as [x|] eqn:Ex; [|apply nth_error_None in Ex; lia].
  destruct (nth_error ys i) as [y|] eqn:Ey; [|apply nth_error_None in Ey; lia]. eexists. split; [reflexivity|]. now apply H.
Qed.
Lemma answers_map r (f : val -> Z) (xs : list val) (P : nat -> Prop) : r = Done (map f xs) ->
  (forall i x, nth_error xs i = Some x -> truth (P i) (f x)) -> answers r (length xs) P.
Proof.
  intros E H. eexists. split; [exact E|]. split; [apply map_length|]. intros i I. rewrite nth_error_map.
  destruct (nth_error xs i) as [x|] eqn:Ex; [|apply nth_error_None in Ex; lia]. eexists. split; [reflexivity|]. now apply H.
Qed.
Lemma nth_VI zs i x : nth_error (map VI zs) i = Some x -> x = VI (nth i zs 0).
Proof. rewrite nth_error_map. destruct (nth_error zs i) eqn:E; [|discriminate]. intros H. injection H as <-. now rewrite (nth_error_nth _ _ 0 E). Qed.

Lemma range12 t : 0 <= t <= 10 -> 0 <= t <= 12. Proof. lia. Qed.
Lemma ints_two ord thr o a b garbage p xs ys : fair ord -> CheckInputs true false a b = Some p -> same_integers p NoScalars (map VI xs) (map VI ys) ->
  length xs = length ys -> length garbage = length xs -> answers (Compare ord thr o a b garbage) (length xs) (fun i => rel o (nth i xs 0 ?= nth i ys 0)).
Proof.
  intros Ho E (M & I1 & I2 & Te & B & d & Ed & T1 & T2) L Lg. rewrite <- (map_length VI xs).
  apply (answers_two _ o (map VI xs) (map VI ys)).
  - now rewrite !map_length.
  - apply (Compare_run ord thr o a b garbage p d d _ Ho E).
    + rewrite <- Te. apply kernel_same; auto using range12.
    + now rewrite I1.
    + now rewrite I2.
    + rewrite M, I1, I2. cbn [apply2]. now rewrite !map_length, L, Nat.eqb_refl.
    + rewrite map2_length; rewrite !map_length; congruence.
  - intros i x y Hx Hy. apply nth_VI in Hx, Hy. subst. apply vcmp_Z.
Qed.
Lemma ints_second ord thr o a b garbage p xs z : fair ord -> CheckInputs true false a b = Some p -> same_integers p Second (map VI xs) [VI z] ->
  length garbage = length xs -> answers (Compare ord thr o a b garbage) (length xs) (fun i => rel o (nth i xs 0 ?= z)).
Proof.
  intros Ho E (M & I1 & I2 & Te & B & d & Ed & T1 & T2) Lg. rewrite <- (map_length VI xs).
  apply (answers_map _ (fun x => b2z (vcmp o x (VI z)))).
  - apply (Compare_run ord thr o a b garbage p d d _ Ho E).
    + rewrite <- Te. apply kernel_same; auto using range12.
    + now rewrite I1.
    + now rewrite I2.
    + rewrite M, I1, I2. reflexivity.
    + now rewrite !map_length.
  - intros i x Hx. apply nth_VI in Hx. subst. apply vcmp_Z.
Qed.
Lemma ints_first ord thr o a b garbage p z ys : fair ord -> CheckInputs true false a b = Some p -> same_integers p First [VI z] (map VI ys) ->
  length garbage = length ys -> answers (Compare ord thr o a b garbage) (length ys) (fun i => rel o (z ?= nth i ys 0)).
Proof.
  intros Ho E (M & I1 & I2 & Te & B & d & Ed & T1 & T2) Lg. rewrite <- (map_length VI ys).
  apply (answers_map _ (fun y => b2z (vcmp o (VI z) y))).
  - apply (Compare_run ord thr o a b garbage p d d _ Ho E).
    + rewrite <- Te. apply kernel_same; auto using range12.
    + now rewrite I1.
    + now rewrite I2.
    + rewrite M, I1, I2. reflexivity.
    + now rewrite !map_length.
  - intros i x Hx. apply nth_VI in Hx. subst. apply vcmp_Z.
Qed.

Definition special_pairs := [(7,8);(7,10);(9,8);(9,10);(8,7);(8,9);(10,7);(10,9)].
Lemma special_raw t1 t2 xs ys : In (t1, t2) special_pairs -> CheckUpcast true t1 t2 xs ys = Some (Prep NoScalars (fix_long t1) (fix_long t2) xs ys).
Proof. intros I. cbn in I. repeat (destruct I as [E|I]; [injection E as <- <-; reflexivity|]). destruct I. Qed.
Definition small_pairs := [(1,8);(3,8);(5,8);(1,10);(3,10);(5,10);(8,1);(8,3);(8,5);(10,1);(10,3);(10,5)].
Lemma small_conv t1 t2 xs ys : In (t1, t2) small_pairs -> CheckUpcast true t1 t2 xs ys =
  match conv_arr t1 12 xs, conv_arr t2 12 ys with Some x, Some y => Some (Prep NoScalars 12 12 x y) | _, _ => None end.
Proof. intros I. cbn in I. repeat (destruct I as [E|I]; [injection E as <- <-; reflexivity|]). destruct I. Qed.
Lemma clash_pairs t1 t2 : 0 <= t1 <= 10 -> 0 <= t2 <= 10 -> clash t1 t2 = true -> In (t1, t2) special_pairs \/ In (t1, t2) small_pairs.
Proof.
  intros B1 B2 C. pose proof (in11 t1 B1) as I1. pose proof (in11 t2 B2) as I2. cbn [In] in I1, I2.
  repeat (destruct I1 as [<-|I1]; [repeat (destruct I2 as [<-|I2]; [first [discriminate | left; cbn; tauto | right; cbn; tauto]|]); destruct I2|]). destruct I1.
Qed.
Lemma clash_inv t1 t2 : clash t1 t2 = false -> 0 <= t1 <= 10 -> 0 <= t2 <= 10 -> ~ (long_unsigned t1 /\ signed t2) /\ ~ (signed t1 /\ long_unsigned t2).
Proof.
  intros C B1 B2. unfold long_unsigned, signed. cbn [In]. split; intros [A S].
  - destruct A as [<-|[<-|[]]]; repeat (destruct S as [<-|S]; [discriminate|]); destruct S.
  - destruct S as [<-|[<-|[]]]; repeat (destruct A as [<-|A]; [discriminate|]); destruct A.
Qed.
Lemma Forall2_nth {A B} (R : A -> B -> Prop) l1 l2 d : Forall2 R l1 l2 -> forall i y, nth_error l2 i = Some y -> R (nth i l1 d) y.
Proof. induction 1 as [|x y l1 l2 H _ IH]; intros [|i] z E; cbn in *; try discriminate; [injection E as <-; assumption|auto]. Qed.
Lemma Forall2_len {A B} (R : A -> B -> Prop) l1 l2 : Forall2 R l1 l2 -> length l1 = length l2.
Proof. induction 1; cbn; congruence. Qed.

Lemma cmp_int_arrays ord thr o t1 t2 d1 d2 xs ys garbage : fair ord -> 0 <= t1 <= 10 -> 0 <= t2 <= 10 -> of_num t1 = Some d1 -> of_num t2 = Some d2 ->
  length xs = length ys -> Forall (typed d1) (map VI xs) -> Forall (typed d2) (map VI ys) ->
  d1 = d2 \/ Forall (plain d1) (map VI xs) /\ Forall (plain d2) (map VI ys) ->
  ~ (long_unsigned t1 /\ long_signed t2 /\ (o = EQ \/ o = NE)) -> length garbage = length xs ->
  answers (Compare ord thr o (Arr t1 (map VI xs)) (Arr t2 (map VI ys)) garbage) (length xs) (fun i => rel o (nth i xs 0 ?= nth i ys 0)).
Proof.
  intros Ho B1 B2 E1 E2 L T1 T2 P N Lg. destruct (clash t1 t2) eqn:C.
  - assert (LV : length (map VI xs) = length (map VI ys)) by now rewrite !map_length.
    destruct (clash_pairs t1 t2 B1 B2 C) as [Sp|Sm].
    + rewrite <- (map_length VI xs). apply (answers_two _ o (map VI xs) (map VI ys) _ LV).
      * apply (Compare_run ord thr o _ _ garbage (Prep NoScalars (fix_long t1) (fix_long t2) (map VI xs) (map VI ys)) d1 d2 _ Ho).
        -- cbn [CheckInputs]. rewrite LV, Nat.eqb_refl. now apply special_raw.
        -- apply kernel_special; [discriminate| | |].
           ++ cbn in Sp. repeat (destruct Sp as [E|Sp]; [injection E as <- <-; exact E1|]). destruct Sp.
           ++ cbn in Sp. repeat (destruct Sp as [E|Sp]; [injection E as <- <-; exact E2|]). destruct Sp.
           ++ unfold long_unsigned, long_signed in *. cbn [In] in N.
              cbn in Sp. repeat (destruct Sp as [E|Sp]; [injection E as <- <-; first [left; cbn; tauto | right; cbn [ty1 ty2 fix_long Z.eqb Pos.eqb orb Z.add Pos.add Pos.succ]; split; [cbn; tauto|split; [cbn; tauto|]]; destruct o; try reflexivity; exfalso; apply N; tauto]|]). destruct Sp.
        -- assumption.
        -- assumption.
        -- cbn [mode in1 in2 apply2]. now rewrite LV, Nat.eqb_refl.
        -- rewrite map2_length by assumption. now rewrite map_length.
      * intros i x y Hx Hy. apply nth_VI in Hx, Hy. subst. apply vcmp_Z.
    + assert (D12 : d1 <> d2). { intros <-. cbn in Sm. repeat (destruct Sm as [E|Sm]; [injection E as <- <-; injection E1 as <-; discriminate E2|]). destruct Sm. }
      destruct P as [P|[P1 P2]]; [contradiction|].
      destruct (conv_nearest d1 xs (int_num t1 d1 B1 E1) P1) as (fs & F1 & H1). destruct (conv_nearest d2 ys (int_num t2 d2 B2 E2) P2) as (gs & F2 & H2).
      pose proof (Forall2_len _ _ _ H1) as L1. pose proof (Forall2_len _ _ _ H2) as L2. rewrite L1.
      apply (answers_two _ o fs gs); [congruence| |].
      * apply (Compare_run ord thr o _ _ garbage (Prep NoScalars 12 12 fs gs) F64 F64 _ Ho).
        -- cbn [CheckInputs]. rewrite LV, Nat.eqb_refl. rewrite small_conv by assumption. unfold conv_arr. rewrite E1, E2. change (of_num 12) with (Some F64). cbv iota beta.
           rewrite F1, F2. reflexivity.
        -- apply (kernel_same o NoScalars 12 F64); [lia|reflexivity].
        -- cbn [in1]. clear -H1. induction H1 as [|? ? ? ? [T _] _ IH]; constructor; auto.
        -- cbn [in2]. clear -H2. induction H2 as [|? ? ? ? [T _] _ IH]; constructor; auto.
        -- cbn [mode in1 in2 apply2]. now replace (length fs =? length gs)%nat with true by (symmetry; apply Nat.eqb_eq; congruence).
        -- rewrite map2_length; congruence.
      * intros i x y Hx Hy. destruct (Forall2_nth _ _ _ 0 H1 i x Hx) as [Tx Dx]. destruct (Forall2_nth _ _ _ 0 H2 i y Hy) as [Ty Dy].
        pose proof (vcmp_R o F64 x y _ _ Tx Ty Dx Dy) as V.
        assert (Ix : (i < length xs)%nat) by (rewrite L1; apply nth_error_Some; congruence).
        assert (Iy : (i < length ys)%nat) by congruence.
        assert (Rx : typed d1 (VI (nth i xs 0))) by (apply (proj1 (Forall_forall _ _) T1), in_map, nth_In; assumption).
        assert (Ry : typed d2 (VI (nth i ys 0))) by (apply (proj1 (Forall_forall _ _) T2), in_map, nth_In; assumption).
        assert (Q : Rcompare (nearest F64 (IZR (nth i xs 0))) (nearest F64 (IZR (nth i ys 0))) = (nth i xs 0 ?= nth i ys 0)).
        { destruct Rx as [_ Rx]. destruct Ry as [_ Ry].
          cbn in Sm. repeat (destruct Sm as [E|Sm]; [injection E as <- <-; injection E1 as <-; injection E2 as <-; cbn in Rx, Ry; first [apply nearest_cmp; lia | apply nearest_cmp'; lia]|]). destruct Sm. }
        rewrite Q in V. exact V.
  - destruct (clash_inv t1 t2 C B1 B2) as [N1 N2].
    destruct (int_arrays true t1 t2 d1 d2 (map VI xs) (map VI ys) B1 B2 E1 E2 N1 N2) as (p & Ep & Sp); auto; [now rewrite !map_length|].
    now apply (ints_two ord thr o _ _ garbage p).
Qed.

Lemma cmp_scalar ord thr o t d xs z garbage : fair ord -> 0 <= t <= 10 -> of_num t = Some d -> scalar_fits t z -> Forall (typed d) (map VI xs) ->
  typed d (VI z) \/ Forall (plain d) (map VI xs) -> length garbage = length xs ->
  answers (Compare ord thr o (Arr t (map VI xs)) (Sca (PyInt z)) garbage) (length xs) (fun i => rel o (nth i xs 0 ?= z))
  /\ answers (Compare ord thr o (Sca (PyInt z)) (Arr t (map VI xs)) garbage) (length xs) (fun i => rel o (z ?= nth i xs 0)).
Proof.
  intros Ho B E F T P L. split.
  - destruct (int_scalar_second true t d (map VI xs) z B E F T P) as (p & Ep & Sp). now apply (ints_second ord thr o _ _ garbage p).
  - destruct (int_scalar_first true t d (map VI xs) z B E F T P) as (p & Ep & Sp). now apply (ints_first ord thr o _ _ garbage p).
Qed.
Lemma cmp_one_item ord thr o t1 t2 d1 d2 x ys garbage : fair ord -> 0 <= t1 <= 10 -> 0 <= t2 <= 10 -> of_num t1 = Some d1 -> of_num t2 = Some d2 ->
  ~ (long_unsigned t1 /\ signed t2) -> ~ (signed t1 /\ long_unsigned t2) -> (1 < length ys)%nat -> typed d1 (VI x) -> - 2 ^ 63 <= x < 2 ^ 63 -> Forall (plain d2) (map VI ys) ->
  length garbage = length ys ->
  answers (Compare ord thr o (Arr t1 [VI x]) (Arr t2 (map VI ys)) garbage) (length ys) (fun i => rel o (x ?= nth i ys 0))
  /\ answers (Compare ord thr o (Arr t2 (map VI ys)) (Arr t1 [VI x]) garbage) (length ys) (fun i => rel o (nth i ys 0 ?= x)).
Proof.
  intros Ho B1 B2 E1 E2 N1 N2 L T R P Lg. split.
  - destruct (one_item_first true t1 t2 d1 d2 x (map VI ys)) as (p & Ep & Sp); auto; [now rewrite map_length|]. now apply (ints_first ord thr o _ _ garbage p).
  - destruct (one_item_second true t2 t1 d2 d1 (map VI ys) x) as (p & Ep & Sp); auto; try tauto; [now rewrite map_length|]. now apply (ints_second ord thr o _ _ garbage p).
Qed.
Lemma nth_VF fs i x : nth_error (map VF fs) i = Some x -> x = VF (nth i fs S754_nan).
Proof. rewrite nth_error_map. destruct (nth_error fs i) eqn:E; [|discriminate]. intros H. injection H as <-. now rewrite (nth_error_nth _ _ S754_nan E). Qed.
Lemma cmp_floats ord thr o t d xs ys garbage : fair ord -> 11 <= t <= 12 -> of_num t = Some d -> length xs = length ys ->
  Forall (typed d) (map VF xs) -> Forall (typed d) (map VF ys) -> length garbage = length xs ->
  answers (Compare ord thr o (Arr t (map VF xs)) (Arr t (map VF ys)) garbage) (length xs) (fun i => ieee o (nth i xs S754_nan) (nth i ys S754_nan)).
Proof.
  intros Ho B E L T1 T2 Lg. assert (LV : length (map VF xs) = length (map VF ys)) by now rewrite !map_length.
  rewrite <- (map_length VF xs). apply (answers_two _ o (map VF xs) (map VF ys) _ LV).
  - apply (Compare_run ord thr o _ _ garbage (Prep NoScalars t t (map VF xs) (map VF ys)) d d _ Ho).
    + cbn [CheckInputs]. rewrite LV, Nat.eqb_refl. unfold CheckUpcast. now rewrite Z.eqb_refl.
    + apply (kernel_same o NoScalars t d); [lia|assumption].
    + assumption.
    + assumption.
    + cbn [mode in1 in2 apply2]. now rewrite LV, Nat.eqb_refl.
    + rewrite map2_length by assumption. now rewrite map_length.
  - intros i x y Hx Hy. apply nth_VF in Hx, Hy. subst. apply vcmp_F.
Qed.
Lemma same_typed d xs ys : Forall2 (same_number d) xs ys -> Forall (typed d) ys.
Proof. induction 1 as [|? ? ? ? [T _] _ IH]; constructor; auto. Qed.
Lemma denotes_fun x r s : denotes x r -> denotes x s -> r = s.
Proof. destruct x; cbn; [congruence|]. intros [_ <-] [_ <-]. reflexivity. Qed.
Lemma same_denotes d xs ys rs : Forall2 (same_number d) xs ys -> Forall2 denotes xs rs -> Forall2 (fun r y => typed d y /\ denotes y r) rs ys.
Proof.
  intros H. revert rs. induction H as [|x y xs ys [T (r & D1 & D2)] _ IH]; intros rs D; inversion D as [|? s ? rs' Ds Drs]; subst; constructor; auto.
  split; [assumption|]. now rewrite (denotes_fun x s r Ds D1).
Qed.
Lemma cmp_mixed ord thr o t1 t2 d1 d2 xs ys rs ss garbage : fair ord -> 0 <= t1 <= 12 -> 0 <= t2 <= 12 -> 11 <= t1 \/ 11 <= t2 -> of_num t1 = Some d1 -> of_num t2 = Some d2 ->
  length xs = length ys -> Forall (fits d1 (float_type t1 t2)) xs -> Forall (fits d2 (float_type t1 t2)) ys -> Forall2 denotes xs rs -> Forall2 denotes ys ss ->
  length garbage = length xs ->
  answers (Compare ord thr o (Arr t1 xs) (Arr t2 ys) garbage) (length xs) (fun i => rel o (Rcompare (nth i rs 0%R) (nth i ss 0%R))).
Proof.
  intros Ho B1 B2 F E1 E2 L X Y D1 D2 Lg.
  destruct (mixed_arrays true t1 t2 d1 d2 xs ys B1 B2 F E1 E2 L X Y) as (p & Ep & M & Te & Ed & N13 & S1 & S2). set (u := float_type t1 t2) in *.
  pose proof (Forall2_len _ _ _ S1) as L1. pose proof (Forall2_len _ _ _ S2) as L2. rewrite L1.
  apply (answers_two _ o (in1 p) (in2 p)); [congruence| |].
  - apply (Compare_run ord thr o _ _ garbage p u u _ Ho Ep).
    + rewrite <- Te. apply kernel_same; [|assumption]. assert (0 <= ty1 p <= 13); [|lia].
      clear -Ed. unfold of_num, zrd in Ed. destruct (0 <=? ty1 p) eqn:Q; [|discriminate]. assert (H : (Z.to_nat (ty1 p) < 14)%nat) by (apply (proj1 (nth_error_Some [Bool; I8; U8; I16; U16; I32; U32; I64; U64; I64; U64; F32; F64; F80] (Z.to_nat (ty1 p)))); congruence). lia.
    + eapply same_typed; eassumption.
    + eapply same_typed; eassumption.
    + rewrite M. cbn [apply2]. now replace (length (in1 p) =? length (in2 p))%nat with true by (symmetry; apply Nat.eqb_eq; congruence).
    + rewrite map2_length; congruence.
  - intros i x y Hx Hy.
    destruct (Forall2_nth _ _ _ 0%R (same_denotes u _ _ _ S1 D1) i x Hx) as [Tx Dx]. destruct (Forall2_nth _ _ _ 0%R (same_denotes u _ _ _ S2 D2) i y Hy) as [Ty Dy].
    now apply (vcmp_R o u).
Qed.
