(** Integer operations. *)
From Coq Require Import SpecFloat.
From Verif Require Import RedModel RedProofs.
From Verif Require Import Base Mem MemLemmas Par ConvModel ConvSpec ConvProofs TwoModel TwoSpec TwoProofs Two2Proofs CmpModel CmpProofs MathModel MathSpec MathProofs.
Local Open Scope Z_scope.

(** ** Residues *)
Definition cong (b x y : Z) : Prop := x mod 2 ^ b = y mod 2 ^ b.
Lemma cong_refl b x : cong b x x. Proof. reflexivity. Qed.
Lemma cong_sym b x y : cong b x y -> cong b y x. Proof. unfold cong. congruence. Qed.
Lemma cong_trans b x y z : cong b x y -> cong b y z -> cong b x z. Proof. unfold cong. congruence. Qed.
Lemma cong_add b x x' y y' : 0 <= b -> cong b x x' -> cong b y y' -> cong b (x + y) (x' + y').
Proof. unfold cong. intros B H K. pose proof (Z.pow_pos_nonneg 2 b). rewrite Z.add_mod, H, K, <- Z.add_mod by lia. reflexivity. Qed.
Lemma cong_sub b x x' y y' : 0 <= b -> cong b x x' -> cong b y y' -> cong b (x - y) (x' - y').
Proof. unfold cong. intros B H K. rewrite Zminus_mod, H, K, <- Zminus_mod. reflexivity. Qed.
Lemma cong_mul b x x' y y' : 0 <= b -> cong b x x' -> cong b y y' -> cong b (x * y) (x' * y').
Proof. unfold cong. intros B H K. pose proof (Z.pow_pos_nonneg 2 b). rewrite Z.mul_mod, H, K, <- Z.mul_mod by lia. reflexivity. Qed.
Lemma cong_bits b x y : 0 <= b -> cong b x y <-> forall i, 0 <= i < b -> Z.testbit x i = Z.testbit y i.
Proof.
  intros B. unfold cong. split.
  - intros H i I. rewrite <- (Z.mod_pow2_bits_low x b i), <- (Z.mod_pow2_bits_low y b i) by lia. now rewrite H.
  - intros H. apply Z.bits_inj'. intros i I. destruct (Z_lt_le_dec i b).
    + rewrite !Z.mod_pow2_bits_low by lia. apply H. lia.
    + rewrite !Z.mod_pow2_bits_high by lia. reflexivity.
Qed.
Lemma cong_land b x x' y y' : 0 <= b -> cong b x x' -> cong b y y' -> cong b (Z.land x y) (Z.land x' y').
Proof. intros B. rewrite !cong_bits by assumption. intros H K i I. rewrite !Z.land_spec. now rewrite H, K. Qed.
Lemma cong_lor b x x' y y' : 0 <= b -> cong b x x' -> cong b y y' -> cong b (Z.lor x y) (Z.lor x' y').
Proof. intros B. rewrite !cong_bits by assumption. intros H K i I. rewrite !Z.lor_spec. now rewrite H, K. Qed.
Lemma cong_lxor b x x' y y' : 0 <= b -> cong b x x' -> cong b y y' -> cong b (Z.lxor x y) (Z.lxor x' y').
Proof. intros B. rewrite !cong_bits by assumption. intros H K i I. rewrite !Z.lxor_spec. now rewrite H, K. Qed.
Lemma cong_lnot b x x' : 0 <= b -> cong b x x' -> cong b (Z.lnot x) (Z.lnot x').
Proof. intros B. rewrite !cong_bits by assumption. intros H i I. rewrite !Z.lnot_spec by lia. now rewrite H. Qed.
Lemma cong_mod b x : 0 <= b -> cong b (x mod 2 ^ b) x.
Proof. intros B. unfold cong. apply Z.mod_mod. pose proof (Z.pow_pos_nonneg 2 b). lia. Qed.
Lemma wrap_range b x : 0 < b -> - 2 ^ (b - 1) <= wrap b x < 2 ^ (b - 1).
Proof.
  intros B. unfold wrap. pose proof (Z.pow_pos_nonneg 2 (b - 1) ltac:(lia) ltac:(lia)). assert (E : 2 ^ b = 2 * 2 ^ (b - 1)) by (rewrite <- Z.pow_succ_r by lia; f_equal; lia).
  pose proof (Z.mod_pos_bound x (2 ^ b) ltac:(lia)). destruct (Z.ltb_spec (x mod 2 ^ b) (2 ^ (b - 1))); lia.
Qed.
Lemma cong_wrap b x : 0 < b -> cong b (wrap b x) x.
Proof.
  intros B. unfold wrap. pose proof (Z.pow_pos_nonneg 2 b ltac:(lia) ltac:(lia)). destruct (_ <? _); [now apply cong_mod; lia|].
  unfold cong. replace (x mod 2 ^ b - 2 ^ b) with (x mod 2 ^ b + (-1) * 2 ^ b) by lia. rewrite Z.mod_add by lia. apply Z.mod_mod. lia.
Qed.
Lemma cong_ct s b x : 0 < b -> cong b (ct s b x) x.
Proof. intros B. destruct s; [now apply cong_wrap|]. apply cong_mod. lia. Qed.
Lemma bits_pos d : 0 < bits d. Proof. destruct d; reflexivity. Qed.
Lemma cong_rd s b x : 0 < b -> cong b (rd s b (VI x)) x.
Proof. intros B. destruct s; [now apply cong_wrap|]. apply cong_mod. lia. Qed.
Lemma rd_id d x : typed d (VI x) -> rd (is_signed d) (bits d) (VI x) = x.
Proof. intros [F T]. destruct d; try discriminate; cbn in *; first [rewrite wrap_id by lia | rewrite Z.mod_small by lia]; reflexivity. Qed.

Lemma put_residue d k z : is_float d = false -> d <> Bool -> cong (bits d) k z -> residue d z (put d k).
Proof.
  intros F N C. exists (wrapT d k). split; [reflexivity|]. split.
  - split; [assumption|]. unfold wrapT. pose proof (wrap_range (bits d) k (bits_pos d)). pose proof (Z.mod_pos_bound k (2 ^ bits d) ltac:(apply Z.pow_pos_nonneg; [lia|destruct d; cbn; lia])).
    unfold lo, hi. destruct d; try discriminate; try congruence; cbn [is_signed] in *; lia.
  - unfold wrapT. destruct (is_signed d); [|rewrite Z.mod_mod by (destruct d; cbn; lia); exact C]. eapply cong_trans; [apply cong_wrap, bits_pos|exact C].
Qed.
Lemma put_bool k : k = 0 \/ k = 1 -> residue Bool k (put Bool k).
Proof. intros [-> | ->]; [exists 0|exists 1]; (split; [reflexivity|]; split; [split; [reflexivity|cbn; lia]|reflexivity]). Qed.

(** ** The operations *)
Lemma mul_u64_ok x y : mul_u64 x y = MulOp false 64 x y.
Proof.
  unfold mul_u64, MulOp, mul_epu32, ct. cbv zeta. change 4294967295 with (Z.ones 32). rewrite !Z.land_ones, !Z.shiftr_div_pow2, !Z.shiftl_mul_pow2 by lia.
  set (B := 2 ^ 32). assert (EB : 2 ^ 64 = B * B) by reflexivity. assert (PB : 0 < B) by reflexivity. rewrite EB. clearbody B.
  rewrite !Z.mod_mod by lia.
  rewrite Z.add_mod_idemp_r by nia. rewrite <- Z.add_mod_idemp_r by nia. rewrite <- (Z.add_mod _ _ (B * B)) by nia. rewrite Z.add_mod_idemp_r by nia.
  rewrite (Z.mod_eq (y / B) B), (Z.mod_eq (x / B) B) by lia.
  pose proof (Z.div_mod x B ltac:(lia)) as Ex. pose proof (Z.div_mod y B ltac:(lia)) as Ey.
  set (lx := x mod B) in *. set (ly := y mod B) in *. set (hx := x / B) in *. set (hy := y / B) in *. set (a := hx / B). set (c := hy / B).
  clearbody lx ly hx hy a c. subst x y.
  replace ((B * hx + lx) * (B * hy + ly)) with ((lx * ly + (lx * (hy - B * c) * B + ly * (hx - B * a) * B)) + (hx * hy + lx * c + ly * a) * (B * B)) by ring.
  symmetry. apply Z.mod_add. nia.
Qed.
Lemma MinOp_min x y : MinOp x y = Z.min x y. Proof. unfold MinOp. destruct (Z.ltb_spec y x); lia. Qed.
Lemma MaxOp_max x y : MaxOp x y = Z.max x y. Proof. unfold MaxOp. destruct (Z.ltb_spec x y); lia. Qed.

Lemma FloorDiv_ok d x y : is_float d = false -> typed d (VI x) -> typed d (VI y) -> d <> Bool -> (d = I32 \/ d = I64 -> ~ (x = lo d /\ y = -1)) ->
  exists q, FloorDivOp (is_signed d) (bits d) x y = Some q /\ cong (bits d) q (if y =? 0 then 0 else x / y).
Proof.
  intros F [_ Tx] [_ Ty] Nb N. unfold FloorDivOp. destruct (Z.eqb_spec y 0) as [Y|Y]; cbn [negb]; [exists 0; split; reflexivity|].
  assert (T : c_traps (is_signed d) (bits d) x y = false).
  { unfold c_traps. destruct (Z.eqb_spec y 0); [contradiction|]. cbn [orb]. destruct (is_signed d) eqn:S; [|reflexivity]. cbn [andb].
    destruct (32 <=? bits d) eqn:B; [|reflexivity]. cbn [andb]. destruct (Z.eqb_spec x (- 2 ^ (bits d - 1))); [|reflexivity]. cbn [andb]. destruct (Z.eqb_spec y (-1)); [|reflexivity].
    exfalso. apply N; [destruct d; try discriminate; auto|]. split; [|assumption]. unfold lo. now rewrite S. }
  unfold c_div, c_rem. rewrite T. pose proof (bits_pos d) as Bp.
  pose proof (Z.quot_rem' x y) as QR. destruct (Bool.eqb (x <? 0) (y <? 0)) eqn:Sg.
  - eexists. split; [reflexivity|]. eapply cong_trans; [now apply cong_ct|]. apply eqb_prop in Sg.
    replace (Z.quot x y) with (x / y); [apply cong_refl|]. destruct (Z.ltb_spec x 0), (Z.ltb_spec y 0); try discriminate.
    + rewrite <- (Z.opp_involutive x), <- (Z.opp_involutive y), Z.quot_opp_opp, Z.div_opp_opp by lia. symmetry. apply Z.quot_div_nonneg; lia.
    + symmetry. apply Z.quot_div_nonneg; lia.
  - assert (R : ct (is_signed d) (bits d) (Z.rem x y) = Z.rem x y).
    { pose proof (Z.rem_bound_abs x y Y) as RB. assert (RS : 0 <= x -> 0 <= Z.rem x y) by (intros; apply Z.rem_nonneg; lia).
      assert (RA : Z.abs (Z.rem x y) <= Z.abs x) by (rewrite <- Z.rem_abs by assumption; apply Z.rem_le; lia).
      unfold ct. unfold lo, hi in *. destruct d; try discriminate; try congruence; cbn [is_signed bits] in *; cbn in Tx, Ty;
        first [apply wrap_id; cbn; lia | apply Z.mod_small; cbn; specialize (RS ltac:(lia)); lia]. }
    rewrite R. eexists. split; [reflexivity|].
    pose proof (Z.div_mod x y Y) as DM. destruct (Z.eqb_spec (Z.rem x y) 0) as [R0|R0]; cbn [negb].
    + eapply cong_trans; [now apply cong_ct|]. replace (x / y) with (Z.quot x y); [apply cong_refl|]. symmetry. rewrite QR at 1. rewrite R0, Z.add_0_r, Z.mul_comm. now apply Z.div_mul.
    + eapply cong_trans; [now apply cong_ct|]. eapply cong_trans; [apply cong_sub; [lia|apply cong_ct; lia|apply cong_refl]|].
      replace (x / y) with (Z.quot x y - 1); [apply cong_refl|]. apply Bool.eqb_false_iff in Sg.
      pose proof (Z.rem_bound_abs x y Y) as RB.
      destruct (Z.ltb_spec x 0) as [Hx|Hx], (Z.ltb_spec y 0) as [Hy|Hy]; try congruence.
      * pose proof (Z.rem_nonpos x y Y ltac:(lia)). apply (Z.div_unique x y (Z.quot x y - 1) (Z.rem x y + y)); [lia|]. lia.
      * pose proof (Z.rem_nonneg x y Y ltac:(lia)). apply (Z.div_unique x y (Z.quot x y - 1) (Z.rem x y + y)); [lia|]. lia.
Qed.
Lemma rem_ok d x y : is_float d = false -> typed d (VI x) -> typed d (VI y) -> d <> Bool -> y <> 0 -> (d = I32 \/ d = I64 -> ~ (x = lo d /\ y = -1)) ->
  exists r, c_rem (is_signed d) (bits d) x y = Some r /\ cong (bits d) r (Z.rem x y).
Proof.
  intros F [_ Tx] [_ Ty] Nb Y N. unfold c_rem.
  assert (T : c_traps (is_signed d) (bits d) x y = false).
  { unfold c_traps. destruct (Z.eqb_spec y 0); [contradiction|]. cbn [orb]. destruct (is_signed d) eqn:S; [|reflexivity]. cbn [andb].
    destruct (32 <=? bits d) eqn:B; [|reflexivity]. cbn [andb]. destruct (Z.eqb_spec x (- 2 ^ (bits d - 1))); [|reflexivity]. cbn [andb]. destruct (Z.eqb_spec y (-1)); [|reflexivity].
    exfalso. apply N; [destruct d; try discriminate; auto|]. split; [|assumption]. unfold lo. now rewrite S. }
  rewrite T. eexists. split; [reflexivity|]. apply cong_ct, bits_pos.
Qed.

Lemma lane_map2 {E A} w (f : E -> E -> A) : lanewise w (map2 f) f. Proof. intros x y _ _. reflexivity. Qed.
Lemma lane_ext {E A} w (f g : E -> E -> A) : (forall a b, f a b = g a b) -> lanewise w (map2 f) g.
Proof. intros H x y _ _. apply map2_ext. intros. apply H. Qed.
Lemma width_ok d : d <> F80 -> (0 < width d)%nat /\ 0 < bits d / 8 /\ Z.of_nat (width d) * (bits d / 8) = 32.
Proof. intros N. destruct d; try congruence; cbn; repeat split; lia. Qed.

Definition kernel_of (o : mop) (d : dtype) : option kernelA := match GetSimpleMathOpFast o d with Some k => Some k | None => GetSimpleMathOpSlow o d end.

Ltac fast L := eexists; eexists; split; [reflexivity|]; split; [apply Fast_agrees; [cbn; lia|cbn; lia|reflexivity|assumption|apply L|try discriminate]|].
Ltac slow := eexists; eexists; split; [reflexivity|]; split; [apply Slow_agrees|].
Ltac value := let Ez := fresh in intros ? ? ? ? ? Ez ?; cbn [exact] in Ez; injection Ez as <-.
Lemma typed_bool x : typed Bool (VI x) -> x = 0 \/ x = 1. Proof. intros [_ T]. cbn in T. lia. Qed.
Ltac bool_value := value; repeat match goal with H : typed Bool _ |- _ => apply typed_bool in H end;
  eexists; (split; [cbn [option_map]; reflexivity|]);
  match goal with |- residue Bool ?z (put Bool ?k) => replace k with z by (intuition (subst; reflexivity)); apply put_bool; intuition (subst; cbn; lia) end.
Ltac some_residue := eexists; (split; [cbn [option_map]; reflexivity|]); apply put_residue; [reflexivity|discriminate|].
Ltac congs := repeat first [apply cong_rd; reflexivity | apply cong_refl | apply cong_lnot; [discriminate|] | apply cong_sub; [discriminate| |] | apply cong_add; [discriminate| |] | apply cong_mul; [discriminate| |]
  | apply cong_land; [discriminate| |] | apply cong_lor; [discriminate| |] | apply cong_lxor; [discriminate| |]].

Section Kernels.
Context (at_ : option Z) (m : smode).
Definition good (o : mop) (d : dtype) : Prop :=
  exists k f, kernel_of o d = Some k /\ agrees f m (k at_) /\
    forall x y z, typed d (VI x) -> typed d (VI y) -> exact d o x y = Some z -> no_trap d o x y -> exists v, f (VI x) (VI y) = Some v /\ residue d z v.

Lemma good_bool o : aligned_to 1 at_ -> (o = BANDNOT -> m = NoScalars) -> exact Bool o 0 0 <> None -> good o Bool.
Proof.
  intros A R S. unfold good. destruct o; try (now destruct (S eq_refl)).
  - fast @lane_map2; [intros _; apply Z.lor_comm|]. bool_value.
  - slow. bool_value.
  - fast @lane_map2; [intros _; apply Z.land_comm|]. bool_value.
  - slow. bool_value.
  - fast @lane_map2; [intros _; apply Z.land_comm|]. bool_value.
  - fast @lane_map2; [intros _; apply Z.lor_comm|]. bool_value.
  - fast @lane_map2; [intros _; apply Z.land_comm|]. bool_value.
  - fast @lane_map2; [intros _; apply Z.lor_comm|]. bool_value.
  - fast @lane_map2; [intros _; apply Z.lxor_comm|]. bool_value.
  - fast @lane_map2; [intros _; apply Z.lxor_comm|]. bool_value.
  - rewrite (R eq_refl). eexists. eexists. split; [reflexivity|]. split; [apply Reverse_agrees; [cbn; lia|apply @lane_map2]|]. bool_value.
  - fast @lane_map2. bool_value.
Qed.

Lemma good_arith o d : is_float d = false -> d <> Bool -> aligned_to (bits d / 8) at_ -> o = ADD \/ o = SUB \/ o = MUL -> good o d.
Proof.
  intros F N A [-> | [-> | ->]]; unfold good; destruct d; try discriminate F; try congruence.
  all: first [slow; value; some_residue; cbn [bits is_signed]; unfold AddOp, SubOp, MulOp; (eapply cong_trans; [apply cong_ct; reflexivity|]); congs
   | fast @lane_map2; [try (intros _ a b; unfold AddOp, MulOp; f_equal; lia)|value; some_residue; cbn [bits]; unfold AddOp, SubOp, MulOp; (eapply cong_trans; [apply cong_ct; reflexivity|]); congs]
   | fast @lane_map2; value; some_residue; cbn [bits]; unfold AddOp, SubOp, MulOp; (eapply cong_trans; [apply cong_ct; reflexivity|]); congs
   | idtac].
  fast @lane_ext; [exact mul_u64_ok|intros _ a b; unfold MulOp; f_equal; lia|]. value. some_residue. cbn [bits]. unfold MulOp. eapply cong_trans; [apply cong_ct; reflexivity|]. congs.
Qed.

Lemma good_bits o d : is_float d = false -> d <> Bool -> aligned_to (bits d / 8) at_ -> o = BAND \/ o = BOR \/ o = BXOR \/ o = BXORS \/ o = BNOTAND -> good o d.
Proof.
  intros F N A [-> | [-> | [-> | [-> | ->]]]]; unfold good; destruct d; try discriminate F; try congruence.
  all: fast @lane_map2; [try (intros _ a b; first [apply Z.land_comm | apply Z.lor_comm | apply Z.lxor_comm])..|].
  all: value; some_residue; cbn [bits]; unfold AndNotOp; congs.
Qed.
Lemma good_andnot d : is_float d = false -> d <> Bool -> m = NoScalars -> good BANDNOT d.
Proof.
  intros F N M; unfold good; destruct d; try discriminate F; try congruence; rewrite M.
  all: eexists; eexists; split; [reflexivity|]; split; [apply Reverse_agrees; [cbn; lia|apply @lane_map2]|].
  all: value; some_residue; cbn [bits]; unfold AndNotOp; rewrite Z.land_comm; congs.
Qed.
Lemma good_minmax o d : exact d o 0 0 <> None -> d <> Bool -> aligned_to (bits d / 8) at_ -> o = MIN \/ o = MAX -> good o d.
Proof.
  intros S N A [-> | ->]; unfold good; destruct d; try (now destruct (S eq_refl)); try congruence.
  all: fast @lane_ext; [intros; symmetry; first [apply MinOp_min | apply MaxOp_max]|intros _ a b; rewrite ?MinOp_min, ?MaxOp_max; lia|].
  all: value; some_residue; rewrite ?MinOp_min, ?MaxOp_max.
  all: match goal with Tx : typed ?d _, Ty : typed ?d _ |- _ => apply rd_id in Tx, Ty; cbn [is_signed bits] in *; rewrite Tx, Ty end; apply cong_refl.
Qed.
Lemma good_div o d : is_float d = false -> d <> Bool -> o = FLOORDIV \/ o = MOD -> good o d.
Proof.
  intros F N [-> | ->]; unfold good; destruct d; try discriminate F; try congruence; slow.
  all: value; match goal with Nt : no_trap ?d ?o ?x ?y, Tx : typed ?d (VI ?x), Ty : typed ?d (VI ?y) |- _ => destruct Nt as [N1 N2];
    pose proof (rd_id _ _ Tx) as Rx; pose proof (rd_id _ _ Ty) as Ry; cbn [is_signed bits] in *; rewrite Rx, Ry;
    first [destruct (FloorDiv_ok d x y eq_refl Tx Ty N) as (q & Eq & Cq); [intros; apply N2; tauto|]; cbn [is_signed bits] in *; rewrite Eq
          |destruct (rem_ok d x y eq_refl Tx Ty N) as (q & Eq & Cq); [apply N1; [reflexivity|discriminate]|intros; apply N2; tauto|]; cbn [is_signed bits] in *; rewrite Eq] end;
    cbn [option_map]; eexists; (split; [reflexivity|]); apply put_residue; [reflexivity|discriminate|exact Cq].
Qed.

Lemma good_all o d : is_float d = false -> aligned_to (bits d / 8) at_ -> (o = BANDNOT -> m = NoScalars) -> exact d o 0 0 <> None -> good o d.
Proof.
  intros F A R S. destruct (dtype_eq_dec d Bool) as [-> |N]; [now apply good_bool|].
  destruct o; first [apply good_arith; now auto | apply good_minmax; now auto | apply good_div; now auto | apply good_bits; now auto 6 | apply good_andnot; now auto | exfalso; destruct d; try discriminate F; try congruence; now apply S].
Qed.
End Kernels.
