(** Operations on two operands: the theorems' proofs. *)
From Coq Require Import Reals Lra SpecFloat.
From Flocq Require Import Core BinarySingleNaN.
From Verif Require Import RedModel RedProofs.
From Verif Require Import Base Mem MemLemmas Par ConvModel ConvSpec ConvProofs TwoModel TwoSpec TwoProofs Two2Proofs CmpModel CmpProofs Cmp2Proofs MathModel MathSpec MathProofs Math2Proofs Math3Proofs MathFloat.
Local Open Scope Z_scope.

Lemma Arr_out out t1 t2 xs ys : CheckInputs false out (Arr t1 xs) (Arr t2 ys) = CheckInputs false false (Arr t1 xs) (Arr t2 ys).
Proof. reflexivity. Qed.

Definition rtype (t1 t2 : Z) : option dtype := match of_num t1, of_num t2 with Some d1, Some d2 => result_type d1 d2 | _, _ => None end.
Definition beq_o (a b : option dtype) : bool := match a, b with Some x, Some y => dtype_beq x y | None, None => true | _, _ => false end.
Lemma rtype_check : forallb (fun t1 => forallb (fun t2 => clash t1 t2 ||
    (if t1 =? t2 then beq_o (of_num t1) (rtype t1 t2)
     else if fix_long t1 =? fix_long t2 then beq_o (of_num (fix_long t1)) (rtype t1 t2)
     else match GetUpcastType false (fix_long t1) (fix_long t2) with Some (c, _) => beq_o (of_num c) (rtype t1 t2) | None => false end)) ints11) ints11 = true.
Proof. vm_compute. reflexivity. Qed.
Lemma beq_o_eq a b : beq_o a b = true -> a = b.
Proof. destruct a, b; cbn; try congruence. intros H. f_equal. now apply beq_eq. Qed.
Lemma result_is t1 t2 d1 d2 xs ys p : 0 <= t1 <= 10 -> 0 <= t2 <= 10 -> of_num t1 = Some d1 -> of_num t2 = Some d2 -> clash t1 t2 = false -> length xs = length ys ->
  CheckInputs false false (Arr t1 xs) (Arr t2 ys) = Some p -> of_num (ty1 p) = result_type d1 d2.
Proof.
  intros B1 B2 E1 E2 C L E. pose proof rtype_check as U. rewrite forallb_forall in U. specialize (U t1 (in11 t1 B1)). rewrite forallb_forall in U. specialize (U t2 (in11 t2 B2)).
  rewrite C in U. cbn [orb] in U. unfold rtype in U. rewrite E1, E2 in U. cbn [CheckInputs] in E. rewrite L, Nat.eqb_refl in E. unfold CheckUpcast in E.
  destruct (t1 =? t2); [injection E as <-; cbn [ty1]; rewrite E1; now apply beq_o_eq|].
  destruct (fix_long t1 =? fix_long t2); [injection E as <-; now apply beq_o_eq|].
  destruct (GetUpcastType false (fix_long t1) (fix_long t2)) as [[c c']|]; [|discriminate].
  destruct (if _ =? c then _ else _); [|discriminate]. destruct (if _ =? c' then _ else _); [|discriminate]. injection E as <-. now apply beq_o_eq.
Qed.

Lemma math_int_arrays ord thr o at_ t1 t2 d1 d2 xs ys garbage :
  fair ord -> 0 <= t1 <= 10 -> 0 <= t2 <= 10 -> of_num t1 = Some d1 -> of_num t2 = Some d2 ->
  ~ (long_unsigned t1 /\ signed t2) -> ~ (signed t1 /\ long_unsigned t2) -> length xs = length ys ->
  Forall (typed d1) (map VI xs) -> Forall (typed d2) (map VI ys) -> d1 = d2 \/ Forall (plain d1) (map VI xs) /\ Forall (plain d2) (map VI ys) ->
  length garbage = length xs ->
  exists d, result_type d1 d2 = Some d /\
  (exact d o 0 0 <> None -> aligned_out d at_ -> (forall i, (i < length xs)%nat -> no_trap d o (nth i xs 0) (nth i ys 0)) ->
   gives (Math ord thr o at_ (Arr t1 (map VI xs)) (Arr t2 (map VI ys)) garbage) (length xs)
     (fun i v => exists z, exact d o (nth i xs 0) (nth i ys 0) = Some z /\ residue d z v)).
Proof.
  intros Ho B1 B2 E1 E2 N1 N2 L T1 T2 P Lg. assert (LV : length (map VI xs) = length (map VI ys)) by now rewrite !map_length.
  destruct (int_arrays false t1 t2 d1 d2 _ _ B1 B2 E1 E2 N1 N2 LV T1 T2 P) as (p & Ep & S). pose proof S as (_ & _ & _ & _ & _ & d & Ed & _).
  exists d. split; [rewrite <- Ed; symmetry; apply (result_is t1 t2 d1 d2 _ _ p B1 B2 E1 E2 (clash_not t1 t2 B1 B2 N1 N2) LV Ep)|].
  intros X A Nt. apply (math_ints ord thr o at_ (Arr t1 (map VI xs)) (Arr t2 (map VI ys)) garbage p NoScalars d xs ys); auto. discriminate.
Qed.

Lemma math_int_scalar ord thr o t d0 xs z garbage :
  fair ord -> 0 <= t <= 10 -> of_num t = Some d0 -> scalar_fits t z -> Forall (typed d0) (map VI xs) -> typed d0 (VI z) \/ Forall (plain d0) (map VI xs) ->
  o <> BANDNOT -> length garbage = length xs ->
  (exists d, typed d (VI z) /\ Forall (typed d) (map VI xs) /\
     (exact d o 0 0 <> None -> (forall i, (i < length xs)%nat -> no_trap d o (nth i xs 0) z) ->
      gives (Math ord thr o None (Arr t (map VI xs)) (Sca (PyInt z)) garbage) (length xs)
        (fun i v => exists k, exact d o (nth i xs 0) z = Some k /\ residue d k v)))
  /\ (exists d, typed d (VI z) /\ Forall (typed d) (map VI xs) /\
     (exact d o 0 0 <> None -> (forall i, (i < length xs)%nat -> no_trap d o z (nth i xs 0)) ->
      gives (Math ord thr o None (Sca (PyInt z)) (Arr t (map VI xs)) garbage) (length xs)
        (fun i v => exists k, exact d o z (nth i xs 0) = Some k /\ residue d k v))).
Proof.
  intros Ho B E F T P No L. split.
  - destruct (int_scalar_second false t d0 _ z B E F T P) as (p & Ep & S). pose proof S as (_ & _ & _ & _ & _ & d & Ed & T1 & T2).
    exists d. split; [now inversion T2|]. split; [assumption|]. intros X Nt.
    apply (math_ints ord thr o None (Arr t (map VI xs)) (Sca (PyInt z)) garbage p Second d xs [z]); auto; [reflexivity|intros ->; contradiction].
  - destruct (int_scalar_first false t d0 _ z B E F T P) as (p & Ep & S). pose proof S as (_ & _ & _ & _ & _ & d & Ed & T1 & T2).
    exists d. split; [now inversion T1|]. split; [assumption|]. intros X Nt.
    apply (math_ints ord thr o None (Sca (PyInt z)) (Arr t (map VI xs)) garbage p First d [z] xs); auto; [reflexivity|intros ->; contradiction].
Qed.

Lemma scalar_typed t d z : 1 <= t <= 10 -> of_num t = Some d -> typed d (VI z) -> ConvertScalarObject (PyInt z) t = Some (VI z).
Proof.
  intros B E T. cbn [ConvertScalarObject]. destruct (AsLongLong z) as [v ov] eqn:A. unfold AsLongLong in A. pose proof T as [_ R].
  assert (C : In t [1;2;3;4;5;6;7;8;9;10]) by (cbn; lia). apply (scalar_int_ok t d z); auto.
  - intros S. assert (Z0 : - 2 ^ 63 <= z < 2 ^ 63).
    { unfold signed in S. cbn in C, S. repeat (destruct C as [<-|C]; [injection E as <-; cbn in R; lia|]). destruct C. }
    destruct (Z.leb_spec (2 ^ 63) z); [lia|]. destruct (Z.ltb_spec z (- 2 ^ 63)); [lia|]. congruence.
  - intros U. assert (Z0 : 0 <= z < 2 ^ 64).
    { unfold unsigned in U. cbn in C, U. repeat (destruct C as [<-|C]; [injection E as <-; cbn in R; lia|]). destruct C. }
    destruct (Z.leb_spec (2 ^ 63) z) as [G|G]; [|destruct (Z.ltb_spec z (- 2 ^ 63)) as [K|K]; [lia|]]; injection A as <- <-.
    + cbn [Z.leb Z.compare orb Z.eqb Pos.eqb]. apply Z.mod_small. lia.
    + replace (0 <=? z) with true by (symmetry; apply Z.leb_le; lia). cbn [orb]. apply Z.mod_small. lia.
Qed.
Lemma math_inplace_scalar ord thr o a t d xs z garbage :
  fair ord -> 1 <= t <= 10 -> of_num t = Some d -> typed d (VI z) -> Forall (typed d) (map VI xs) -> aligned d a -> o <> BANDNOT ->
  exact d o 0 0 <> None -> (forall i, (i < length xs)%nat -> no_trap d o (nth i xs 0) z) -> length garbage = length xs ->
  gives (Math ord thr o (Some a) (Arr t (map VI xs)) (Sca (PyInt z)) garbage) (length xs) (fun i v => exists k, exact d o (nth i xs 0) z = Some k /\ residue d k v).
Proof.
  intros Ho B E Tz T A No X Nt L. set (p := Prep Second t t (map VI xs) [VI z]).
  assert (Ep : CheckInputs false true (Arr t (map VI xs)) (Sca (PyInt z)) = Some p).
  { cbn [CheckInputs]. unfold conv_if. rewrite Z.eqb_refl. now rewrite (scalar_typed t d z). }
  apply (math_ints ord thr o (Some a) (Arr t (map VI xs)) (Sca (PyInt z)) garbage p Second d xs [z]); auto; try discriminate; [|reflexivity|intros ->; contradiction].
  unfold same_integers, p. cbn [mode in1 in2 ty1 ty2]. split; [reflexivity|]. split; [reflexivity|]. split; [reflexivity|]. split; [reflexivity|]. split; [lia|].
  exists d. split; [assumption|]. split; [assumption|]. exact (Forall_cons _ Tz (Forall_nil _)).
Qed.

(** ** Floats *)
Lemma nearest_rep u f r : typed u (VF f) -> denotes (VF f) r -> nearest u r = r.
Proof.
  intros [_ V] [_ <-]. unfold nearest. apply round_generic; [apply valid_rnd_N|]. rewrite <- (B2R_SF2B (prec u) (emax u) f V). apply generic_format_B2R.
Qed.
Lemma rounded_rep u f r : typed u (VF f) -> denotes (VF f) r -> rounded u r (VF f).
Proof. intros T D. split; [assumption|]. exists r. split; [assumption|]. symmetry. now apply (nearest_rep u f). Qed.
Lemma fop_real o d x y r s t : typed d (VF x) -> typed d (VF y) -> denotes (VF x) r -> denotes (VF y) s -> real_op o r s = Some t -> (o = DIV -> s <> 0%R) -> in_range d t ->
  rounded d t (VF (fop o d x y)).
Proof.
  intros Tx Ty Dx Dy E N I. pose proof Tx as [F _]. destruct o; try discriminate E; injection E as <-; cbn [fop].
  - now apply add_ok.
  - now apply sub_ok.
  - now apply mul_ok.
  - unfold MinOpF, fne, SFltb, SFeqb. rewrite (SFcompare_R d y x s r), (SFcompare_R d y y s s), (Rcompare_Eq s s) by auto. cbn [negb orb]. rewrite orb_false_r.
    destruct (Rcompare_spec s r); [rewrite Rmin_right by lra|rewrite Rmin_left by lra|rewrite Rmin_left by lra]; now apply rounded_rep.
  - unfold MaxOpF, fne, SFltb, SFeqb. rewrite (SFcompare_R d x y r s), (SFcompare_R d y y s s), (Rcompare_Eq s s) by auto. cbn [negb orb]. rewrite orb_false_r.
    destruct (Rcompare_spec r s); [rewrite Rmax_right by lra|rewrite Rmax_left by lra|rewrite Rmax_left by lra]; now apply rounded_rep.
  - apply div_ok; auto.
Qed.
Lemma real_float_op o r s t : real_op o r s = Some t -> float_op o = true. Proof. now destruct o. Qed.

Lemma math_numbers ord thr o at_ a b garbage p m u xs ys rs ss : fair ord -> CheckInputs false (given at_) a b = Some p ->
  same_numbers p m u xs ys -> u = F32 \/ u = F64 -> shaped m xs ys -> (m = First -> at_ = None) -> aligned_out u at_ ->
  Forall2 denotes xs rs -> Forall2 denotes ys ss -> length garbage = n_items m xs ys ->
  let r i := nth (match m with First => 0%nat | _ => i end) rs 0%R in let s i := nth (match m with Second => 0%nat | _ => i end) ss 0%R in
  real_op o 0 0 <> None -> (forall i t, (i < n_items m xs ys)%nat -> real_op o (r i) (s i) = Some t -> (o = DIV -> s i <> 0%R) /\ in_range u t) ->
  gives (Math ord thr o at_ a b garbage) (n_items m xs ys) (fun i v => exists t, real_op o (r i) (s i) = Some t /\ rounded u t v).
Proof.
  intros Ho E (M & Te & Ed & _ & S1 & S2) U Sh F A D1 D2 L r s X Ok.
  pose proof (Forall2_len _ _ _ S1) as L1. pose proof (Forall2_len _ _ _ S2) as L2.
  assert (O : float_op o = true) by (clear -X; destruct o; cbn in X |- *; congruence).
  destruct (float_kernel o u (place o at_ a p) m U O) as (k & K & Ag); [apply place_aligned; destruct at_; exact A|].
  replace (n_items m xs ys) with (n_items m (in1 p) (in2 p)) in * by (destruct m; cbn; congruence).
  apply (math_gives (fun x y => Some (VF (fop o u (as_f x) (as_f y)))) ord thr o at_ a b garbage p m u k); auto.
  - destruct m; cbn in *; congruence.
  - intros i x y Hx Hy.
    destruct (Forall2_nth _ _ _ 0%R (same_denotes u _ _ _ S1 D1) _ x Hx) as [Tx Dx]. destruct (Forall2_nth _ _ _ 0%R (same_denotes u _ _ _ S2 D2) _ y Hy) as [Ty Dy].
    fold (r i) in Dx. fold (s i) in Dy.
    assert (I : (i < n_items m (in1 p) (in2 p))%nat) by (destruct m; cbn in *; apply nth_error_Some; congruence).
    assert (Fu : is_float u = true) by (destruct U; subst; reflexivity).
    destruct x as [|f]; [destruct Tx; congruence|]. destruct y as [|g]; [destruct Ty; congruence|]. cbn [as_f].
    destruct (real_op o (r i) (s i)) as [t|] eqn:Et; [|exfalso; clear -X Et; destruct o; cbn in X, Et; congruence].
    eexists. split; [reflexivity|]. exists t. split; [reflexivity|]. destruct (Ok i t I Et) as [Q1 Q2]. now apply (fop_real o u f g (r i) (s i) t).
Qed.
Lemma float_type_two t1 t2 : float_type t1 t2 = F32 \/ float_type t1 t2 = F64. Proof. unfold float_type. destruct (_ || _); auto. Qed.
Lemma math_mixed ord thr o at_ t1 t2 d1 d2 xs ys rs ss garbage : 
  fair ord -> 0 <= t1 <= 12 -> 0 <= t2 <= 12 -> 11 <= t1 \/ 11 <= t2 -> of_num t1 = Some d1 -> of_num t2 = Some d2 -> length xs = length ys ->
  let u := float_type t1 t2 in Forall (fits d1 u) xs -> Forall (fits d2 u) ys -> aligned_out u at_ ->
  Forall2 denotes xs rs -> Forall2 denotes ys ss -> real_op o 0 0 <> None ->
  (forall i t, (i < length xs)%nat -> real_op o (nth i rs 0%R) (nth i ss 0%R) = Some t -> (o = DIV -> nth i ss 0%R <> 0%R) /\ in_range u t) ->
  length garbage = length xs ->
  gives (Math ord thr o at_ (Arr t1 xs) (Arr t2 ys) garbage) (length xs) (fun i v => exists t, real_op o (nth i rs 0%R) (nth i ss 0%R) = Some t /\ rounded u t v).
Proof.
  intros Ho B1 B2 F E1 E2 L u X Y A D1 D2 Q Ok Lg. destruct (mixed_arrays false t1 t2 d1 d2 xs ys B1 B2 F E1 E2 L X Y) as (p & Ep & S).
  apply (math_numbers ord thr o at_ (Arr t1 xs) (Arr t2 ys) garbage p NoScalars u xs ys rs ss); auto; [apply float_type_two|discriminate].
Qed.
Lemma math_float_scalar ord thr o t d xs f rs s garbage : 
  fair ord -> 0 <= t <= 12 -> of_num t = Some d -> typed F64 (VF f) -> let u := if t =? 11 then F32 else F64 in
  Forall (fits d u) xs -> denotes (VF f) s -> representable u s -> Forall2 denotes xs rs -> real_op o 0 0 <> None ->
  (forall i k, (i < length xs)%nat -> real_op o (nth i rs 0%R) s = Some k -> (o = DIV -> s <> 0%R) /\ in_range u k) ->
  length garbage = length xs ->
  gives (Math ord thr o None (Arr t xs) (Sca (PyFloat f)) garbage) (length xs) (fun i v => exists k, real_op o (nth i rs 0%R) s = Some k /\ rounded u k v).
Proof.
  intros Ho B E Tf u X Df Rf D Q Ok L. assert (Eu : float_type t (if t =? 11 then t else 12) = u).
  { unfold u, float_type. destruct (Z.eqb_spec t 11) as [->|]; [reflexivity|]. now rewrite orb_true_r. }
  destruct (float_scalar_second false t d xs f B E Tf) as (p & Ep & S); [now rewrite Eu|rewrite Eu; now exists s|]. rewrite Eu in S.
  apply (math_numbers ord thr o None (Arr t xs) (Sca (PyFloat f)) garbage p Second u xs [VF f] rs [s]); auto; try reflexivity; try discriminate.
  unfold u. destruct (t =? 11); auto.
Qed.

Lemma VF_items xs i x : nth_error (map VF xs) i = Some x -> x = VF (nth i xs S754_nan). Proof. apply nth_VF. Qed.
Lemma math_nan ord thr o at_ t d xs ys garbage : fair ord -> 11 <= t <= 12 -> of_num t = Some d -> length xs = length ys ->
  float_op o = true -> aligned_out d at_ -> length garbage = length xs ->
  gives (Math ord thr o at_ (Arr t (map VF xs)) (Arr t (map VF ys)) garbage) (length xs)
    (fun i v => nth i xs S754_nan = S754_nan \/ nth i ys S754_nan = S754_nan -> v = VF S754_nan).
Proof.
  intros Ho B E L O A Lg. assert (U : d = F32 \/ d = F64).
  { assert (C : t = 11 \/ t = 12) by lia. destruct C as [-> | ->]; injection E as <-; auto. }
  set (p := Prep NoScalars t t (map VF xs) (map VF ys)).
  destruct (float_kernel o d (place o at_ (Arr t (map VF xs)) p) NoScalars U O) as (k & K & Ag); [apply place_aligned; destruct at_; exact A|].
  assert (LV : length (map VF xs) = length (map VF ys)) by now rewrite !map_length.
  replace (length xs) with (n_items NoScalars (in1 p) (in2 p)) in * by (cbn; now rewrite map_length).
  apply (math_gives (fun x y => Some (VF (fop o d (as_f x) (as_f y)))) ord thr o at_ (Arr t (map VF xs)) (Arr t (map VF ys)) garbage p NoScalars d k); auto; try discriminate.
  - cbn [CheckInputs]. rewrite LV, Nat.eqb_refl. unfold CheckUpcast. now rewrite Z.eqb_refl.
  - intros i x y Hx Hy. apply VF_items in Hx, Hy. subst. eexists. split; [reflexivity|]. intros N. cbn [as_f]. f_equal. now apply fop_nan.
Qed.

(** ** Division of integers, dates *)
Lemma dbl_ok z : Z.abs z <= 2 ^ 53 -> typed F64 (VF (dbl z)) /\ denotes (VF (dbl z)) (IZR z).
Proof.
  intros H. destruct (normalize_nearest F64 z) as (V & F & E); [cbn; lia|]. rewrite nearest_int in E by (cbn; first [reflexivity|lia]). now split.
Qed.
Lemma div_range x y : Z.abs x <= 2 ^ 53 -> y <> 0 -> in_range F64 (IZR x / IZR y).
Proof.
  intros Hx Hy. unfold in_range. apply Rle_lt_trans with (bpow radix2 53); [|apply bpow_lt; reflexivity].
  pose proof (fexp_correct (prec F64) (emax F64) (fmt_prec F64)) as HV. unfold nearest. apply abs_round_le_generic; auto with typeclass_instances.
  - apply generic_format_bpow. unfold SpecFloat.fexp, SpecFloat.emin. cbn. lia.
  - unfold Rdiv. rewrite Rabs_mult, Rabs_inv, <- !abs_IZR. change (bpow radix2 53) with (IZR (2 ^ 53)).
    assert (A : (1 <= IZR (Z.abs y))%R) by (apply IZR_le; lia). assert (B : (0 <= IZR (Z.abs x) <= IZR (2 ^ 53))%R) by (split; apply IZR_le; lia).
    apply Rmult_le_reg_r with (IZR (Z.abs y)); [lra|]. rewrite Rmult_assoc, Rinv_l by lra. nra.
Qed.
Lemma DivOp_ok x y : Z.abs x <= 2 ^ 53 -> Z.abs y <= 2 ^ 53 -> y <> 0 -> rounded F64 (IZR x / IZR y) (VF (DivOp x y)).
Proof.
  intros Hx Hy N. destruct (dbl_ok x Hx) as [Tx Dx]. destruct (dbl_ok y Hy) as [Ty Dy]. apply div_ok; auto; [|now apply div_range]. intros E. apply N. now apply eq_IZR.
Qed.
Lemma div_kernel d at_ m : is_float d = false -> exists k, kernel_of DIV d = Some k
  /\ agrees (fun x y => Some (VF (DivOp (rd (is_signed d) (bits d) x) (rd (is_signed d) (bits d) y)))) m (k at_).
Proof.
  intros F. destruct d; try discriminate F; try (eexists; split; [reflexivity|]; first [apply FastDouble_agrees | apply (Slow_agrees (rd _ _) (fun x y => Some (VF (DivOp x y))))]).
Qed.
Lemma math_div ord thr a b garbage p m xs ys : fair ord -> CheckInputs false false a b = Some p ->
  same_integers p m (map VI xs) (map VI ys) -> shaped m xs ys -> 
  let x i := nth (match m with First => 0%nat | _ => i end) xs 0 in let y i := nth (match m with Second => 0%nat | _ => i end) ys 0 in
  (forall i, (i < n_items m xs ys)%nat -> Z.abs (x i) <= 2 ^ 53 /\ Z.abs (y i) <= 2 ^ 53 /\ y i <> 0) -> length garbage = n_items m xs ys ->
  gives (Math ord thr DIV None a b garbage) (n_items m xs ys) (fun i v => rounded F64 (IZR (x i) / IZR (y i)) v).
Proof.
  intros Ho E (M & I1 & I2 & Te & B & d & Ed & T1 & T2) S x y R L. pose proof (int_num _ d B Ed) as Fd.
  destruct (div_kernel d (place DIV None a p) m Fd) as (k & K & Ag).
  replace (n_items m xs ys) with (n_items m (in1 p) (in2 p)) in * by (rewrite I1, I2; destruct m; cbn; now rewrite map_length).
  eapply (math_gives _ ord thr DIV None a b garbage p m d k); eauto.
  - rewrite I1, I2. destruct m; cbn in *; now rewrite ?map_length.
  - intros i u w Hu Hw. rewrite I1 in Hu. rewrite I2 in Hw.
    assert (I : (i < n_items m (in1 p) (in2 p))%nat).
    { rewrite I1, I2. destruct m; cbn in *; apply nth_error_Some; congruence. }
    assert (Tu : typed d u) by (apply (proj1 (Forall_forall _ _) T1); eapply nth_error_In; exact Hu).
    assert (Tw : typed d w) by (apply (proj1 (Forall_forall _ _) T2); eapply nth_error_In; exact Hw).
    apply left_VI in Hu. apply right_VI in Hw. fold (x i) in Hu. fold (y i) in Hw. subst u w. eexists. split; [reflexivity|].
    rewrite !rd_id by assumption. destruct (R i I) as (H1 & H2 & H3). now apply DivOp_ok.
Qed.
Lemma math_div_arrays ord thr t1 t2 d1 d2 xs ys garbage :
  fair ord -> 0 <= t1 <= 10 -> 0 <= t2 <= 10 -> of_num t1 = Some d1 -> of_num t2 = Some d2 ->
  ~ (long_unsigned t1 /\ signed t2) -> ~ (signed t1 /\ long_unsigned t2) -> length xs = length ys ->
  Forall (typed d1) (map VI xs) -> Forall (typed d2) (map VI ys) -> d1 = d2 \/ Forall (plain d1) (map VI xs) /\ Forall (plain d2) (map VI ys) ->
  (forall i, (i < length xs)%nat -> Z.abs (nth i xs 0) <= 2 ^ 53 /\ Z.abs (nth i ys 0) <= 2 ^ 53 /\ nth i ys 0 <> 0) -> length garbage = length xs ->
  gives (Math ord thr DIV None (Arr t1 (map VI xs)) (Arr t2 (map VI ys)) garbage) (length xs) (fun i v => rounded F64 (IZR (nth i xs 0) / IZR (nth i ys 0)) v).
Proof.
  intros Ho B1 B2 E1 E2 N1 N2 L T1 T2 P R Lg. assert (LV : length (map VI xs) = length (map VI ys)) by now rewrite !map_length.
  destruct (int_arrays false t1 t2 d1 d2 _ _ B1 B2 E1 E2 N1 N2 LV T1 T2 P) as (p & Ep & S).
  now apply (math_div ord thr (Arr t1 (map VI xs)) (Arr t2 (map VI ys)) garbage p NoScalars xs ys).
Qed.
Lemma math_div_scalar ord thr t d xs z garbage :
  fair ord -> 0 <= t <= 10 -> of_num t = Some d -> scalar_fits t z -> Forall (typed d) (map VI xs) -> typed d (VI z) \/ Forall (plain d) (map VI xs) ->
  Z.abs z <= 2 ^ 53 -> (forall i, (i < length xs)%nat -> Z.abs (nth i xs 0) <= 2 ^ 53) -> length garbage = length xs ->
  (z <> 0 -> gives (Math ord thr DIV None (Arr t (map VI xs)) (Sca (PyInt z)) garbage) (length xs) (fun i v => rounded F64 (IZR (nth i xs 0) / IZR z) v))
  /\ ((forall i, (i < length xs)%nat -> nth i xs 0 <> 0) ->
      gives (Math ord thr DIV None (Sca (PyInt z)) (Arr t (map VI xs)) garbage) (length xs) (fun i v => rounded F64 (IZR z / IZR (nth i xs 0)) v)).
Proof.
  intros Ho B E F T P Hz Hx L. split; intros N.
  - destruct (int_scalar_second false t d _ z B E F T P) as (p & Ep & S).
    apply (math_div ord thr (Arr t (map VI xs)) (Sca (PyInt z)) garbage p Second xs [z]); auto. reflexivity.
  - destruct (int_scalar_first false t d _ z B E F T P) as (p & Ep & S).
    apply (math_div ord thr (Sca (PyInt z)) (Arr t (map VI xs)) garbage p First [z] xs); auto. reflexivity.
Qed.
Lemma nodate_iff d x : d = I32 \/ d = I64 -> nodate (bits d) x = false <-> is_date d x.
Proof.
  intros D. unfold nodate, is_date. replace (lo d) with (- 2 ^ (bits d - 1)) by (destruct D; subst; reflexivity).
  rewrite orb_false_iff, !Z.eqb_neq. tauto.
Qed.
Lemma math_dates_gen ord thr o t d xs ys garbage (f : Z -> Z -> val) (P : nat -> val -> Prop) : fair ord -> of_num t = Some d -> d = I32 \/ d = I64 -> length xs = length ys ->
  Forall (typed d) (map VI xs) -> Forall (typed d) (map VI ys) ->
  kernel_of o d = Some (SimpleMathOpSlow (rd (is_signed d) (bits d)) (fun x y => Some (f x y))) ->
  (forall i, (i < length xs)%nat -> P i (f (nth i xs 0) (nth i ys 0))) -> length garbage = length xs ->
  gives (Math ord thr o None (Arr t (map VI xs)) (Arr t (map VI ys)) garbage) (length xs) P.
Proof.
  intros Ho E D L T1 T2 K V Lg. set (p := Prep NoScalars t t (map VI xs) (map VI ys)).
  assert (LV : length (map VI xs) = length (map VI ys)) by now rewrite !map_length.
  replace (length xs) with (n_items NoScalars (in1 p) (in2 p)) in * by (cbn; now rewrite map_length).
  apply (math_gives (fun x y => Some (f (rd (is_signed d) (bits d) x) (rd (is_signed d) (bits d) y))) ord thr o None (Arr t (map VI xs)) (Arr t (map VI ys)) garbage p NoScalars d
           (SimpleMathOpSlow (rd (is_signed d) (bits d)) (fun x y => Some (f x y)))); auto; try discriminate.
  - cbn [CheckInputs]. rewrite LV, Nat.eqb_refl. unfold CheckUpcast. now rewrite Z.eqb_refl.
  - apply (Slow_agrees (rd (is_signed d) (bits d)) (fun x y => Some (f x y))).
  - intros i x y Hx Hy. assert (I : (i < n_items NoScalars (in1 p) (in2 p))%nat) by (cbn in *; apply nth_error_Some; congruence).
    assert (Tx : typed d x) by (apply (proj1 (Forall_forall _ _) T1); eapply nth_error_In; exact Hx).
    assert (Ty : typed d y) by (apply (proj1 (Forall_forall _ _) T2); eapply nth_error_In; exact Hy).
    apply left_VI in Hx. apply right_VI in Hy. subst. eexists. split; [reflexivity|]. rewrite !rd_id by assumption. now apply V.
Qed.
Lemma math_subdates ord thr t d xs ys garbage : fair ord -> of_num t = Some d -> d = I32 \/ d = I64 -> length xs = length ys ->
  Forall (typed d) (map VI xs) -> Forall (typed d) (map VI ys) -> length garbage = length xs ->
  gives (Math ord thr SUBDATES None (Arr t (map VI xs)) (Arr t (map VI ys)) garbage) (length xs)
    (fun i v => (is_date d (nth i xs 0) /\ is_date d (nth i ys 0) -> residue d (nth i xs 0 - nth i ys 0) v)
             /\ (~ is_date d (nth i xs 0) \/ ~ is_date d (nth i ys 0) -> v = VI 0)).
Proof.
  intros Ho E D L T1 T2 Lg.
  apply (math_dates_gen ord thr SUBDATES t d xs ys garbage (fun x y => put d (SubDatesOp (bits d) x y))); auto.
  - destruct D; subst; reflexivity.
  - intros i I. unfold SubDatesOp. rewrite <- !(nodate_iff d) by assumption. split.
    + intros [-> ->]. cbn [orb]. apply put_residue; [destruct D; subst; reflexivity|destruct D; subst; discriminate|]. apply cong_wrap, bits_pos.
    + intros [H|H]; apply not_false_is_true in H; rewrite H, ?orb_true_r; destruct D; subst; reflexivity.
Qed.
Lemma math_subdatetimes ord thr t d xs ys garbage : fair ord -> of_num t = Some d -> d = I32 \/ d = I64 -> length xs = length ys ->
  Forall (typed d) (map VI xs) -> Forall (typed d) (map VI ys) -> length garbage = length xs ->
  gives (Math ord thr SUBDATETIMES None (Arr t (map VI xs)) (Arr t (map VI ys)) garbage) (length xs)
    (fun i v => (is_date d (nth i xs 0) /\ is_date d (nth i ys 0) -> lo d <= nth i xs 0 - nth i ys 0 <= hi d -> rounded F64 (IZR (nth i xs 0 - nth i ys 0)) v)
             /\ (~ is_date d (nth i xs 0) \/ ~ is_date d (nth i ys 0) -> v = VF S754_nan)).
Proof.
  intros Ho E D L T1 T2 Lg.
  apply (math_dates_gen ord thr SUBDATETIMES t d xs ys garbage (fun x y => VF (SubDateTimeOp (bits d) x y))); auto.
  - destruct D; subst; reflexivity.
  - intros i I. unfold SubDateTimeOp. rewrite <- !(nodate_iff d) by assumption. split.
    + intros [-> ->] R. cbn [orb]. rewrite wrap_id by (destruct D; subst; cbn in *; lia).
      destruct (normalize_nearest F64 (nth i xs 0 - nth i ys 0)) as (V & F & Q); [destruct D; subst; cbn in R |- *; lia|].
      split; [now split|]. eexists. split; [split; [exact F|reflexivity]|exact Q].
    + intros [H|H]; apply not_false_is_true in H; rewrite H, ?orb_true_r; reflexivity.
Qed.
