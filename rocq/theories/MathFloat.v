(** Operations on floats of any format: SpecFloat, Flocq and the real numbers. *)
From Coq Require Import Reals Lra SpecFloat.
From Flocq Require Import Core BinarySingleNaN.
From Verif Require Import RedModel RedProofs.
From Verif Require Import Base Mem MemLemmas Par ConvModel ConvSpec ConvProofs TwoModel TwoSpec TwoProofs Two2Proofs CmpModel CmpProofs Cmp2Proofs MathModel MathSpec MathProofs Math2Proofs Math3Proofs.
Local Open Scope Z_scope.

Section Fmt.
  Variables (p e : Z).
  Context (Hp : FLX.Prec_gt_0 p) (Hm : Prec_lt_emax p e).
  Notation bf := (binary_float p e).
  Lemma normalize_equivF m ex z : SpecFloat.binary_normalize p e m ex z = B2SF (binary_normalize p e Hp Hm mode_NE m ex z).
  Proof. case m as [|q|q]; [now simpl| |]; simpl; rewrite B2SF_SF2B; apply round_equivF. Qed.
  Lemma mul_equivF (x y : bf) : SFmul p e (B2SF x) (B2SF y) = B2SF (Bmult mode_NE x y).
  Proof. case x as [sx|sx| |sx mx ex Bx]; case y as [sy|sy| |sy my ey By]; [now trivial.. |]. simpl. rewrite B2SF_SF2B. apply round_aux_equivF. Qed.
  Lemma div_equivF (x y : bf) : SFdiv p e (B2SF x) (B2SF y) = B2SF (Bdiv mode_NE x y).
  Proof.
    case x as [sx|sx| |sx mx ex Bx]; case y as [sy|sy| |sy my ey By]; [now (trivial || simpl; case Bool.eqb).. |].
    simpl. rewrite B2SF_SF2B. set (melz := SFdiv_core_binary _ _ _ _ _ _). case melz as [[mz ez] lz]. apply round_aux_equivF.
  Qed.
  Lemma add_equivF (x y : bf) : SFadd p e (B2SF x) (B2SF y) = B2SF (Bplus mode_NE x y).
  Proof.
    case x as [sx|sx| |sx mx ex Bx]; case y as [sy|sy| |sy my ey By]; try (now trivial); try (simpl; now case Bool.eqb).
    unfold SFadd, Bplus, B2SF at 1 2. rewrite <- normalize_equivF. reflexivity.
  Qed.
  Lemma sub_equivF (x y : bf) : SFsub p e (B2SF x) (B2SF y) = B2SF (Bminus mode_NE x y).
  Proof.
    case x as [sx|sx| |sx mx ex Bx]; case y as [sy|sy| |sy my ey By]; try (now trivial); try (simpl; now case Bool.eqb).
    unfold SFsub, Bminus, Bopp, Bplus, B2SF at 1 2. rewrite <- normalize_equivF. cbn [B2SF]. f_equal. unfold Fplus_naive.
    destruct sy; cbn [negb cond_Zopp]; lia.
  Qed.
End Fmt.

Lemma add_comm p e x y : SFadd p e x y = SFadd p e y x.
Proof.
  destruct x as [[]|[]| |sx mx ex], y as [[]|[]| |sy my ey]; try reflexivity. unfold SFadd. rewrite (Z.min_comm ey ex).
  f_equal. apply Z.add_comm.
Qed.
Lemma mul_comm p e x y : SFmul p e x y = SFmul p e y x.
Proof. destruct x as [[]|[]| |sx mx ex], y as [[]|[]| |sy my ey]; try reflexivity; cbn; rewrite ?(xorb_comm sy); rewrite ?(Pos.mul_comm my), ?(Z.add_comm ey); reflexivity. Qed.

(** ** One operation on two finite floats *)
Lemma SF_B u f (V : valid_binary (prec u) (emax u) f = true) : f = B2SF (SF2B f V).
Proof. symmetry. apply B2SF_SF2B. Qed.
Lemma rounded_B u (x : binary_float (prec u) (emax u)) r : is_float u = true -> is_finite x = true -> B2R x = nearest u r -> rounded u r (VF (B2SF x)).
Proof.
  intros F Fi E. split; [split; [assumption|apply valid_binary_B2SF]|]. exists (B2R x). split; [|assumption].
  split; [now rewrite is_finite_SF_B2SF|apply SF2R_B2SF].
Qed.
Section Ops.
  Variables (u : dtype) (f g : spec_float) (r s : R).
  Hypothesis (Fu : is_float u = true) (Tf : typed u (VF f)) (Tg : typed u (VF g)) (Df : denotes (VF f) r) (Dg : denotes (VF g) s).
  Let Hp := fmt_prec u.
  Let Hm := fmt_emax u.
  Lemma add_ok : in_range u (r + s) -> rounded u (r + s) (VF (SFadd (prec u) (emax u) f g)).
  Proof.
    destruct Tf as [_ Vf], Tg as [_ Vg], Df as [Ff <-], Dg as [Fg <-]. intros I. rewrite (SF_B u f Vf), (SF_B u g Vg) in *. rewrite add_equivF with (Hp := Hp) (Hm := Hm).
    pose proof (Bplus_correct (prec u) (emax u) Hp Hm mode_NE (SF2B f Vf) (SF2B g Vg)) as C. rewrite is_finite_SF_B2SF in Ff, Fg. specialize (C Ff Fg).
    rewrite !SF2R_B2SF in *. rewrite Rlt_bool_true in C by exact I. destruct C as (C1 & C2 & _). apply rounded_B; auto.
  Qed.
  Lemma sub_ok : in_range u (r - s) -> rounded u (r - s) (VF (SFsub (prec u) (emax u) f g)).
  Proof.
    destruct Tf as [_ Vf], Tg as [_ Vg], Df as [Ff <-], Dg as [Fg <-]. intros I. rewrite (SF_B u f Vf), (SF_B u g Vg) in *. rewrite sub_equivF with (Hp := Hp) (Hm := Hm).
    pose proof (Bminus_correct (prec u) (emax u) Hp Hm mode_NE (SF2B f Vf) (SF2B g Vg)) as C. rewrite is_finite_SF_B2SF in Ff, Fg. specialize (C Ff Fg).
    rewrite !SF2R_B2SF in *. rewrite Rlt_bool_true in C by exact I. destruct C as (C1 & C2 & _). apply rounded_B; auto.
  Qed.
  Lemma mul_ok : in_range u (r * s) -> rounded u (r * s) (VF (SFmul (prec u) (emax u) f g)).
  Proof.
    destruct Tf as [_ Vf], Tg as [_ Vg], Df as [Ff <-], Dg as [Fg <-]. intros I. rewrite (SF_B u f Vf), (SF_B u g Vg) in *. rewrite mul_equivF with (Hp := Hp) (Hm := Hm).
    pose proof (Bmult_correct (prec u) (emax u) Hp Hm mode_NE (SF2B f Vf) (SF2B g Vg)) as C. rewrite is_finite_SF_B2SF in Ff, Fg.
    rewrite !SF2R_B2SF in *. rewrite Rlt_bool_true in C by exact I. destruct C as (C1 & C2 & _). apply rounded_B; auto. now rewrite C2, Ff, Fg.
  Qed.
  Lemma div_ok : s <> 0%R -> in_range u (r / s) -> rounded u (r / s) (VF (SFdiv (prec u) (emax u) f g)).
  Proof.
    destruct Tf as [_ Vf], Tg as [_ Vg], Df as [Ff <-], Dg as [Fg <-]. intros N I. rewrite (SF_B u f Vf), (SF_B u g Vg) in *. rewrite div_equivF with (Hp := Hp) (Hm := Hm).
    rewrite SF2R_B2SF in N. pose proof (Bdiv_correct (prec u) (emax u) Hp Hm mode_NE (SF2B f Vf) (SF2B g Vg) N) as C. rewrite is_finite_SF_B2SF in Ff, Fg.
    rewrite !SF2R_B2SF in *. rewrite Rlt_bool_true in C by exact I. destruct C as (C1 & C2 & _). apply rounded_B; auto. now rewrite C2.
  Qed.
End Ops.

(** ** Kernels of floats *)
Definition fop (o : mop) (d : dtype) : spec_float -> spec_float -> spec_float :=
  let p := prec d in let q := emax d in
  match o with
  | ADD => SFadd p q | SUB => SFsub p q | MUL => SFmul p q | DIV => SFdiv p q
  | MIN => MinOpF | MAX => MaxOpF | FLOORDIV => FloorDivF d | _ => REMAINDER_OP d
  end.
Definition float_op (o : mop) : bool := match o with ADD | SUB | MUL | DIV | MIN | MAX | FLOORDIV | MOD => true | _ => false end.
Lemma ffast_agrees sym d f at_ m : d = F32 \/ d = F64 -> aligned_to (bits d / 8) at_ -> (sym = true -> forall a b, f a b = f b a) ->
  agrees (fun x y => Some (VF (f (as_f x) (as_f y)))) m (ffast sym d f at_).
Proof.
  intros D A S. apply Fast_agrees; auto.
  - destruct D as [-> | ->]; cbn; lia.
  - destruct D as [-> | ->]; cbn; lia.
  - destruct D as [-> | ->]; reflexivity.
  - destruct D as [-> | ->]; apply lane_map2.
Qed.
Lemma float_kernel o d at_ m : d = F32 \/ d = F64 -> float_op o = true -> aligned_to (bits d / 8) at_ ->
  exists k, kernel_of o d = Some k /\ agrees (fun x y => Some (VF (fop o d (as_f x) (as_f y)))) m (k at_).
Proof.
  intros D O A.
  assert (Fa : forall sym f, (sym = true -> forall a b, f a b = f b a) -> exists k, Some (ffast sym d f) = Some k /\ agrees (fun x y => Some (VF (f (as_f x) (as_f y)))) m (k at_)).
  { intros sym f S. eexists. split; [reflexivity|]. now apply ffast_agrees. }
  assert (Sl : forall f, exists k, Some (fslow f) = Some k /\ agrees (fun x y => Some (VF (f (as_f x) (as_f y)))) m (k at_)).
  { intros f. eexists. split; [reflexivity|]. apply (Slow_agrees as_f (fun x y => Some (VF (f x y)))). }
  destruct o; try discriminate; destruct D as [-> | ->]; match goal with |- context [fop ?o ?d] =>
    first [exact (Sl (fop o d)) | refine (Fa true (fop o d) _); intros _ a b; first [apply add_comm | apply mul_comm] | refine (Fa false (fop o d) _); discriminate] end.
Qed.

Lemma fop_nan o d x y : float_op o = true -> x = S754_nan \/ y = S754_nan -> fop o d x y = S754_nan.
Proof.
  intros O [-> | ->].
  - destruct o; try discriminate; destruct y as [[]|[]| |[] m e]; try reflexivity; unfold fop, MinOpF, MaxOpF, fne, SFltb, SFeqb, FloorDivF, REMAINDER_OP; cbn; rewrite ?Z.compare_refl; try reflexivity;
    change (Pos.compare_cont Eq m m) with (m ?= m)%positive; rewrite Pos.compare_refl; reflexivity.
  - destruct o; try discriminate; destruct x as [[]|[]| |[] m e]; reflexivity.
Qed.

(** ** The whole operation *)
Lemma math_gives f ord thr o at_ a b garbage p m d k P : fair ord -> CheckInputs false (given at_) a b = Some p ->
  mode p = m -> ty1 p = ty2 p -> of_num (ty1 p) = Some d -> shaped m (in1 p) (in2 p) -> (m = First -> at_ = None) ->
  kernel_of o d = Some k -> agrees f m (k (place o at_ a p)) ->
  (forall i x y, left_item m (in1 p) i = Some x -> right_item m (in2 p) i = Some y -> exists v, f x y = Some v /\ P i v) ->
  length garbage = n_items m (in1 p) (in2 p) -> gives (Math ord thr o at_ a b garbage) (n_items m (in1 p) (in2 p)) P.
Proof.
  intros Ho E M Te Ed S F K Ag V L.
  assert (Kk : CheckMathOpTwoInputs o (mode p) (ty1 p) (ty2 p) = Some k) by (rewrite <- Te, (Check_same o _ _ d Ed); exact K).
  rewrite (Math_work ord thr o at_ a b garbage p k E); [|rewrite M; assumption|assumption].
  subst m. now apply (work_gives f).
Qed.
