(** Proofs about operations on one array: the kernels, the tests, integers. *)
From Coq Require Import Reals Lra SpecFloat.
From Flocq Require Import Core BinarySingleNaN.
From Verif Require Import RedModel RedProofs.
From Verif Require Import Base Mem MemLemmas Par ConvModel ConvSpec ConvProofs TwoModel TwoSpec TwoProofs CmpModel CmpSpec CmpProofs Cmp2Proofs MathModel MathSpec UnaryModel UnarySpec.
Local Open Scope Z_scope.

(** * Kernels *)
Definition kernel_ok (d : dtype) (P : val -> val -> Prop) (k : kernel1) : Prop :=
  match k with
  | Slow f => forall x, typed d x -> P x (f x)
  | Fast _ w f v => (0 < w)%nat /\ (forall x, typed d x -> P x (f x)) /\ (forall r, length r = w -> Forall (typed d) r -> Forall2 P r (v r))
  end.
Lemma map_rel (P : val -> val -> Prop) d (f : val -> val) l : (forall x, typed d x -> P x (f x)) -> Forall (typed d) l -> Forall2 P l (map f l).
Proof. intros H. induction 1; cbn; constructor; auto. Qed.
Lemma rows_rel (P : val -> val -> Prop) d w (v : list val -> list val) rs : (forall r, length r = w -> Forall (typed d) r -> Forall2 P r (v r)) ->
  Forall (fun r => length r = w) rs -> Forall (typed d) (concat rs) -> Forall2 P (concat rs) (concat (map v rs)).
Proof.
  intros H. induction 1 as [|r rs L _ IH]; cbn; [constructor|]. rewrite Forall_app. intros [T1 T2]. apply Forall2_app; auto.
Qed.
Lemma run1_ok d P k b : kernel_ok d P k -> Forall (typed d) (vals b) -> Forall2 P (vals b) (run1 k b).
Proof.
  destruct k as [f|ot w f v]; cbn [kernel_ok run1]; intros K T; [now apply map_rel with d|]. destruct K as (W & K1 & K2).
  destruct (packed b && _ && _ && _); [|now apply map_rel with d].
  rewrite <- (rows_app w (vals b) W) in T. apply Forall_app in T as [T1 T2]. rewrite <- (rows_app w (vals b) W) at 1.
  apply Forall2_app; [apply rows_rel with d w; auto; now apply rows_len|now apply map_rel with d].
Qed.
Lemma process_ok lib o d u k bs P : CheckMathOpOneInput lib o d = Some (u, k) -> kernel_ok d P k -> Forall (typed d) (items bs) ->
  each (ProcessOneInput lib o d bs) bs u P.
Proof.
  intros C K T. unfold ProcessOneInput. rewrite C. cbn. eexists. split; [reflexivity|]. unfold items in *.
  induction bs as [|b bs IH]; cbn in *; [constructor|]. apply Forall_app in T as [T1 T2]. apply Forall2_app; [now apply run1_ok with d|auto].
Qed.
Lemma process_none lib o d bs : CheckMathOpOneInput lib o d = None -> ProcessOneInput lib o d bs = None.
Proof. intros C. unfold ProcessOneInput. now rewrite C. Qed.

Lemma regF_ok (P : val -> val -> Prop) d g r : (forall x, typed d x -> P x (VF (g (as_f x)))) -> Forall (typed d) r -> Forall2 P r (regF (map g) r).
Proof. intros H T. unfold regF. rewrite !map_map. now apply map_rel with d. Qed.
Lemma regZ_ok (P : val -> val -> Prop) d g r : (forall x, typed d x -> P x (VI (g (as_z x)))) -> Forall (typed d) r -> Forall2 P r (regZ (map g) r).
Proof. intros H T. unfold regZ. rewrite !map_map. now apply map_rel with d. Qed.
Lemma lanes_pos d : (0 < lanes_of d)%nat. Proof. destruct d; vm_compute; lia. Qed.
Lemma float_typed d x : is_float d = true -> typed d x -> exists f, x = VF f /\ valid_binary (prec d) (emax d) f = true.
Proof. intros F. destruct x as [z|f]; cbn; intros [A B]; [congruence|eauto]. Qed.
Lemma int_typed d x : is_float d = false -> typed d x -> exists z, x = VI z /\ lo d <= z <= hi d.
Proof. intros F. destruct x as [z|f]; cbn; intros [A B]; [eauto|congruence]. Qed.

(** * Tests *)
Lemma truth_b (b : bool) (P : Prop) : (b = true <-> P) -> truth P (b2z b).
Proof. unfold truth. destruct b; cbn; intros [A B]; [left|right]; split; auto. intros H. now discriminate (B H). Qed.
Lemma answer_b (b : bool) (P : Prop) : (b = true <-> P) -> answer1 P (VI (b2z b)).
Proof. intros H. exists (b2z b). split; [reflexivity|now apply truth_b]. Qed.

Lemma map2_self {A B} (f : A -> A -> B) m : map2 f m m = map (fun x => f x x) m.
Proof. unfold map2. induction m as [|x m IH]; [reflexivity|]. cbn. now rewrite IH. Qed.
Lemma map2_const {A B C} (f : A -> B -> C) c n m : length m = n -> map2 f (repeat c n) m = map (f c) m.
Proof. intros <-. unfold map2. induction m as [|x m IH]; [reflexivity|]. cbn. now rewrite IH. Qed.
Lemma eq_self x : COMP_F EQ x x = negb (isnan x).
Proof. destruct x as [[]|[]| |s p e]; try reflexivity. cbn. unfold SFeqb, SFcompare. destruct s; now rewrite Z.compare_refl, Pos.compare_cont_refl. Qed.
Lemma ISNOTNAN_lane n m : length m = n -> ISNOTNAN_256 n m = map (fun x => b2z (negb (isnan x))) m.
Proof.
  intros <-. unfold ISNOTNAN_256, index, cmp_fp. rewrite map2_self. rewrite <- (map_length (fun x => match x with S754_nan => 0 | _ => if COMP_F EQ x x then -1 else 0 end) m) at 1 2.
  match goal with |- LUT ?a (Z.land (movemask ?q) _) = _ => replace a with (length q) by now rewrite !map_length end.
  rewrite LUT_ok, map_map. apply map_ext. intros x. rewrite !eq_self. now destruct x.
Qed.
Lemma ISNAN_lane n m : length m = n -> ISNAN_256 n m = map (fun x => b2z (isnan x)) m.
Proof.
  intros L. unfold ISNAN_256, LUTInverse. fold (ISNOTNAN_256 n m). rewrite ISNOTNAN_lane by assumption. rewrite map_map. apply map_ext. intros x. now destruct x.
Qed.
Lemma ISFINITE_lane d n m : length m = n -> ISFINITE_256 d n m = map (fun x => b2z (isfinite x)) m.
Proof.
  intros L. unfold ISFINITE_256, index, cmp_neq_oq. rewrite map2_const by now rewrite map_length. rewrite map_map.
  match goal with |- LUT ?a (Z.land (movemask ?q) _) = _ => replace a with (length q) by now rewrite map_length end.
  rewrite LUT_ok, map_map. apply map_ext. intros x. destruct x; try reflexivity. cbn -[isnormal]. now destruct (isnormal _ _).
Qed.
Lemma ISNOTFINITE_lane d n m : length m = n -> ISNOTFINITE_256 d n m = map (fun x => b2z (negb (isfinite x))) m.
Proof.
  intros L. unfold ISNOTFINITE_256, index, cmp_fp. rewrite map2_const by now rewrite map_length. rewrite map_map.
  match goal with |- LUT ?a (Z.land (movemask ?q) _) = _ => replace a with (length q) by now rewrite map_length end.
  rewrite LUT_ok, map_map. apply map_ext. intros x. destruct x; try reflexivity. cbn -[isnormal]. now destruct (isnormal _ _).
Qed.

Definition ftest (o : uop) (d : dtype) (x : spec_float) : bool :=
  match o with
  | LOGICAL_NOT => fzero x | ISNAN => isnan x | ISNOTNAN => negb (isnan x) | ISFINITE => isfinite x | ISNOTFINITE => negb (isfinite x)
  | ISNANORZERO => SFeqb x fz || isnan x | ISINF => isinf x | ISNOTINF => negb (isinf x) | ISNORMAL => isnormal d x | ISNOTNORMAL => negb (isnormal d x)
  | _ => false
  end.
Definition is_test (o : uop) : bool := match o with
  | LOGICAL_NOT | ISNAN | ISNOTNAN | ISFINITE | ISNOTFINITE | ISNANORZERO | ISINF | ISNOTINF | ISNORMAL | ISNOTNORMAL => true | _ => false end.
Lemma ftest_kernel lib o d (P : val -> val -> Prop) : is_float d = true -> is_test o = true -> (forall x, typed d x -> P x (VI (b2z (ftest o d (as_f x))))) ->
  exists k, CheckMathOpOneInput lib o d = Some (Bool, k) /\ kernel_ok d P k.
Proof.
  intros F T H.
  destruct o; try discriminate T; destruct d; try discriminate F; eexists; (split; [reflexivity|]); cbn [kernel_ok];
    try (intros x X; exact (H x X)); (split; [vm_compute; lia|split; [intros x X; exact (H x X)|]]);
    intros r L R; unfold regB;
    first [rewrite ISNAN_lane|rewrite ISNOTNAN_lane|rewrite ISFINITE_lane|rewrite ISNOTFINITE_lane]; try (now rewrite map_length);
    rewrite !map_map; eapply map_rel; eauto.
Qed.
Definition itest (o : uop) (d : dtype) (x : val) : bool :=
  match o with
  | LOGICAL_NOT => as_z x =? 0 | ISNAN | ISNOTFINITE => negb (is_valid d x) | ISNOTNAN | ISFINITE => is_valid d x
  | ISNANORZERO => negb (vneq x (GetInvalid d)) || (as_z x =? 0) | ISINF | ISNOTNORMAL => false | ISNOTINF | ISNORMAL => true
  | _ => false
  end.
Lemma itest_kernel lib o d (P : val -> val -> Prop) : is_float d = false -> is_test o = true -> (forall x, typed d x -> P x (VI (b2z (itest o d x)))) ->
  exists k, CheckMathOpOneInput lib o d = Some (Bool, k) /\ kernel_ok d P k.
Proof.
  intros F T H. destruct o; try discriminate T; destruct d; try discriminate F; eexists; (split; [reflexivity|]); cbn [kernel_ok]; exact H.
Qed.

(** ** What the tests mean *)
Lemma abs_SF s m e : Rabs (SF2R radix2 (S754_finite s m e)) = (IZR (Z.pos m) * bpow radix2 e)%R.
Proof. cbn [SF2R]. rewrite <- F2R_Zabs. rewrite abs_cond_Zopp. reflexivity. Qed.
Lemma normal_ok d s m e : is_float d = true -> valid_binary (prec d) (emax d) (S754_finite s m e) = true ->
  (isnormal d (S754_finite s m e) = true <-> (bpow radix2 (2 - emax d) <= Rabs (SF2R radix2 (S754_finite s m e)))%R).
Proof.
  intros F V. cbn [valid_binary] in V. unfold SpecFloat.bounded in V. apply andb_prop in V as [C _]. unfold SpecFloat.canonical_mantissa in C. apply Zeq_bool_eq in C.
  unfold SpecFloat.fexp, SpecFloat.emin in C. rewrite abs_SF. cbn [isnormal].
  pose proof (Zdigits_correct radix2 (Z.pos m)) as D. rewrite <- Zpos_digits2_pos in D. set (k := Z.pos (digits2_pos m)) in *.
  assert (P : 1 < prec d) by (destruct d; cbn; lia).
  assert (K : 0 < k) by (unfold k; lia). rewrite Z.eqb_eq. cbn [Z.abs] in D. split; intros H.
  - apply Rle_trans with (bpow radix2 (prec d - 1 + e)); [apply bpow_le; lia|]. rewrite bpow_plus. apply Rmult_le_compat_r; [apply bpow_ge_0|].
    rewrite <- IZR_Zpower by lia. apply IZR_le. rewrite <- H. apply D.
  - destruct (Z.lt_trichotomy k (prec d)) as [L|[E|G]]; [exfalso|assumption|lia].
    assert (Ee : e = 3 - emax d - prec d) by lia. apply (Rlt_irrefl (bpow radix2 (2 - emax d))). eapply Rle_lt_trans; [exact H|].
    replace (2 - emax d) with (prec d - 1 + e) by lia. rewrite bpow_plus. apply Rmult_lt_compat_r; [apply bpow_gt_0|].
    rewrite <- IZR_Zpower by lia. apply IZR_lt. destruct D as [_ D]. eapply Z.lt_le_trans; [exact D|]. apply Zpower_le. lia.
Qed.
Lemma SF2R_zero f : is_finite_SF f = true -> SF2R radix2 f = 0%R -> exists s, f = S754_zero s.
Proof. destruct f as [s| | |s m e]; try discriminate; [eauto|]. intros _ H. exfalso. cbn in H. apply eq_0_F2R in H. destruct s; discriminate H. Qed.
Lemma zero_denotes f : fzero f = true <-> denotes (VF f) 0.
Proof.
  split; [destruct f; try discriminate; now split|]. intros [A B]. destruct (SF2R_zero f A B) as [s ->]. reflexivity.
Qed.
Lemma missing_F d f : is_float d = true -> (isnan f = true <-> invalid d = Some (VF f)).
Proof. destruct d; try discriminate; intros _; (split; [destruct f; try discriminate; reflexivity|intros H; injection H as <-; reflexivity]). Qed.
Lemma inf_F f : isinf f = true <-> infinite (VF f).
Proof. split; [destruct f; try discriminate; now eexists|]. intros [s E]. now injection E as ->. Qed.
Lemma negb_not (b : bool) (P : Prop) : (b = true <-> P) -> (negb b = true <-> ~ P).
Proof. destruct b; cbn; intros [A B]; split; intros H; try discriminate; try reflexivity; [elim H; now apply A|]. intros Q. discriminate (B Q). Qed.
Lemma normal_F d f : is_float d = true -> valid_binary (prec d) (emax d) f = true -> (isnormal d f = true <-> normal d (VF f)).
Proof.
  intros F V. assert (Pos : (0 < bpow radix2 (2 - emax d))%R) by apply bpow_gt_0. unfold normal, denotes.
  destruct f as [s|s| |s m e].
  - split; [discriminate|]. intros (r & [_ <-] & H). cbn [SF2R] in H. rewrite Rabs_R0 in H. lra.
  - split; [discriminate|]. intros (r & [H _] & _). discriminate H.
  - split; [discriminate|]. intros (r & [H _] & _). discriminate H.
  - rewrite normal_ok by assumption. split; [intros H; eexists; split; [split; reflexivity|exact H]|]. intros (r & [_ <-] & H). exact H.
Qed.
Lemma some_eq {A} (x y : A) : Some x = Some y -> x = y. Proof. congruence. Qed.
Lemma ftest_ok o d f P : is_float d = true -> valid_binary (prec d) (emax d) f = true -> test1 o d (VF f) = Some P -> (ftest o d f = true <-> P).
Proof.
  intros F V T. destruct o; try discriminate T; apply some_eq in T; subst P; cbn [ftest].
  - apply zero_denotes.
  - rewrite <- missing_F, <- inf_F by assumption. destruct f; cbn; intuition congruence.
  - rewrite <- missing_F, <- inf_F by assumption. destruct f; cbn; intuition congruence.
  - now apply missing_F.
  - apply negb_not. now apply missing_F.
  - rewrite <- missing_F, <- zero_denotes by assumption. destruct f as [[]|[]| |[] m e]; cbn; intuition congruence.
  - apply inf_F.
  - apply negb_not, inf_F.
  - now apply normal_F.
  - apply negb_not. now apply normal_F.
Qed.
Lemma int_not_inf z : ~ infinite (VI z). Proof. intros [s E]. discriminate E. Qed.
Lemma int_zero z : (z =? 0) = true <-> denotes (VI z) 0.
Proof. rewrite Z.eqb_eq. cbn. split; [now intros ->|]. intros H. apply eq_IZR. now rewrite <- H. Qed.
Lemma missing_Z d z : is_float d = false -> (negb (is_valid d (VI z)) = true <-> invalid d = Some (VI z)).
Proof.
  destruct d; try discriminate; intros _; cbn; rewrite ?negb_involutive, ?Z.eqb_eq; (split; [now try intros ->|]); intros H; try discriminate; congruence.
Qed.
Lemma missing_or_zero d z : is_float d = false -> typed d (VI z) ->
  (negb (vneq (VI z) (GetInvalid d)) || (z =? 0) = true <-> invalid d = Some (VI z) \/ denotes (VI z) 0).
Proof.
  intros F [_ T]. rewrite orb_true_iff, int_zero. destruct d; try discriminate; cbn in *; rewrite ?negb_involutive, ?Z.eqb_eq;
    intuition (try congruence; try lia).
Qed.
Lemma itest_ok o d z P : is_float d = false -> typed d (VI z) -> test1 o d (VI z) = Some P -> (itest o d (VI z) = true <-> P).
Proof.
  intros F V T. pose proof (int_not_inf z) as NI. pose proof (missing_Z d z F) as M. pose proof (negb_not _ _ M) as M'. rewrite negb_involutive in M'.
  destruct o; try discriminate T; apply some_eq in T; subst P; cbn [itest as_z].
  - apply int_zero.
  - tauto.
  - tauto.
  - exact M.
  - exact M'.
  - now apply missing_or_zero.
  - split; [discriminate|tauto].
  - tauto.
  - cbn. tauto.
  - cbn. split; [discriminate|tauto].
Qed.
Lemma tests_ok lib o d bs : (forall x, test1 o d x <> None) -> Forall (typed d) (items bs) ->
  each (ProcessOneInput lib o d bs) bs Bool (fun x y => forall P, test1 o d x = Some P -> answer1 P y).
Proof.
  intros T X. assert (I : is_test o = true) by (specialize (T (VI 0)); destruct o; try reflexivity; now elim T).
  destruct (is_float d) eqn:F.
  - destruct (ftest_kernel lib o d (fun x y => forall P, test1 o d x = Some P -> answer1 P y) F I) as (k & K1 & K2); [|eapply process_ok; eauto].
    intros x Tx P HP. destruct (float_typed d x F Tx) as (f & -> & V). apply answer_b. cbn [as_f]. now apply ftest_ok.
  - destruct (itest_kernel lib o d (fun x y => forall P, test1 o d x = Some P -> answer1 P y) F I) as (k & K1 & K2); [|eapply process_ok; eauto].
    intros x Tx P HP. destruct (int_typed d x F Tx) as (z & -> & V). apply answer_b. now apply itest_ok.
Qed.
