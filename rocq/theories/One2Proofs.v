(** Proofs about operations on the items of one array: the numbers. *)
From Coq Require Import Reals Lra SpecFloat.
From Flocq Require Import Core BinarySingleNaN.
From Verif Require Import RedModel.
From Verif Require Import Base Mem MemLemmas ConvModel ConvSpec ConvProofs TwoModel TwoSpec TwoProofs Two2Proofs CmpModel CmpSpec MathModel MathSpec MathProofs Math2Proofs Math3Proofs MathFloat UnaryModel UnarySpec UnaryProofs Unary2Proofs.
From Verif Require SdsProofs Stack8Proofs.
From Verif Require Import SdsModel.
From Verif Require Import LayoutModel.
From Verif Require Import StackModel StackProofs OneModel OneSpec OneProofs.
Local Open Scope Z_scope.
Notation loop_types := [I8; U8; I16; U16; I32; U32; I64; U64; F32; F64].
Notation isbyte := (fun b => 0 <= b < 256).

Lemma unle_bound x : Forall isbyte x -> 0 <= unle x < 256 ^ len x.
Proof.
  induction 1 as [|b x B _ IH]; [cbn; lia|]. cbn [unle]. unfold len in *. cbn [length]. rewrite Nat2Z.inj_succ, Z.pow_succ_r by lia. lia.
Qed.
Lemma size_bits t x : In t loop_types -> Forall isbyte x -> len x = size t -> 0 <= unle x < 2 ^ bits t.
Proof.
  intros T B L. pose proof (unle_bound x B) as H. rewrite L in H. assert (E : 256 ^ size t = 2 ^ bits t); [|lia].
  repeat (destruct T as [<-|T]; [reflexivity|]). destruct T.
Qed.
Lemma to_float_valid t z : In t [F32; F64] -> valid_binary (prec t) (emax t) (to_float t z) = true.
Proof.
  intros T. assert (Q : frac_bits t = prec t - 1 /\ hidden t = 2 ^ (prec t - 1) /\ 2 <= prec t /\ 2 * emax t = 2 ^ exp_bits t /\ 0 < exp_bits t /\ prec t < emax t).
  { destruct T as [<-|[<-|[]]]; vm_compute; repeat split; discriminate. }
  destruct Q as (Q1 & Q2 & Q3 & Q4 & Q5 & Q6). unfold to_float. rewrite Q1, Q2. set (f := z mod _). set (x := (z / _) mod _). set (s := Z.odd _).
  assert (Hf : 0 <= f < 2 ^ (prec t - 1)) by (apply Z.mod_pos_bound, Z.pow_pos_nonneg; lia). assert (Hx : 0 <= x < 2 ^ exp_bits t) by (apply Z.mod_pos_bound, Z.pow_pos_nonneg; lia).
  assert (P2 : 2 ^ prec t = 2 * 2 ^ (prec t - 1)) by (rewrite <- Z.pow_succ_r by lia; f_equal; lia).
  assert (Can : forall m e, Z.pos m < 2 ^ prec t -> (e = least t \/ (2 ^ (prec t - 1) <= Z.pos m /\ least t <= e)) -> e <= emax t - prec t -> valid_binary (prec t) (emax t) (S754_finite s m e) = true).
  { intros m e M E U. cbn [valid_binary]. unfold SpecFloat.bounded, SpecFloat.canonical_mantissa, SpecFloat.fexp, SpecFloat.emin. apply andb_true_intro. split; [|apply Z.leb_le; lia].
    apply Zeq_is_eq_bool. pose proof (Stack8Proofs.digits2_bounds m) as D. set (d := Z.pos (digits2_pos m)) in *. assert (0 < d) by (unfold d; lia). clearbody d.
    assert (D1 : d <= prec t). { destruct (Z.le_gt_cases d (prec t)) as [|G]; auto. pose proof (Z.pow_le_mono_r 2 (prec t) (d - 1)) as P. lia. }
    unfold least in E. destruct E as [E|[E1 E2]]; [lia|].
    assert (D2 : prec t <= d). { destruct (Z.le_gt_cases (prec t) d) as [|G]; auto. pose proof (Z.pow_le_mono_r 2 d (prec t - 1)) as P. lia. } lia. }
  destruct (Z.eqb_spec x (2 ^ exp_bits t - 1)); [destruct (_ =? 0); reflexivity|].
  destruct (Z.eqb_spec x 0).
  - destruct f as [|m|m] eqn:Ef; try reflexivity. apply Can; [lia|auto|unfold least; lia].
  - destruct (f + 2 ^ (prec t - 1)) as [|m|m] eqn:Ef; try reflexivity. apply Can; [lia|right; unfold least; lia|unfold least; lia].
Qed.
Lemma dec_typed t x : In t loop_types -> Forall isbyte x -> len x = size t -> typed t (dec t x).
Proof.
  intros T B L. pose proof (size_bits t x T B L) as U. unfold dec. destruct (is_float t) eqn:F.
  - split; auto. apply to_float_valid. repeat (destruct T as [<-|T]; [try discriminate F; cbn; auto|]). destruct T.
  - split; auto. unfold lo, hi. destruct (is_signed t) eqn:Sg.
    + assert (Pb : 0 < bits t) by (destruct t; reflexivity). pose proof (wrap_range (bits t) (unle x) Pb) as W. unfold Mem.wrap in *. destruct t; try discriminate Sg; cbn [bits] in *; lia.
    + destruct t; try discriminate Sg; try discriminate F; cbn [bits] in *; try lia. exfalso. clear - T. cbn in T. intuition discriminate.
Qed.
Lemma enc_len t v : len (enc t v) = size t.
Proof. unfold enc, len. assert (L : forall w z, length (le w z) = w) by (induction w; intros; cbn; auto). rewrite L. destruct t; reflexivity. Qed.
Lemma computed_float u t x f y : dec t x = VF f -> float_result u t (VF f) (VF y) -> computed u t x (enc t (VF y)).
Proof. intros D H. unfold computed. rewrite D. rewrite Stack8Proofs.dec_enc; auto. apply H. Qed.
Lemma computed_int u t x z k : dec t x = VI z -> typed t (VI k) -> (forall r, exact1 u z = Some r -> residue t r (VI k)) -> computed u t x (enc t (VI k)).
Proof. intros D T H. unfold computed. rewrite D. rewrite Stack8Proofs.dec_enc; auto. Qed.
Lemma wrap_residue t z : is_float t = false -> t <> Bool -> residue t z (VI (wrapT t z)).
Proof. intros F N. exact (put_residue t z z F N eq_refl). Qed.
Lemma same_residue t z : typed t (VI z) -> residue t z (VI z). Proof. intros T. exists z. auto. Qed.
Lemma residue_typed t z v : residue t z v -> typed t v. Proof. intros (k & -> & T & _). auto. Qed.
Lemma not_bool t : In t loop_types -> t <> Bool. Proof. intros T ->. cbn in T. intuition discriminate. Qed.
Lemma float_types t : In t loop_types -> is_float t = true -> In t [F32; F64].
Proof. intros T F. repeat (destruct T as [<-|T]; [try discriminate F; cbn; auto|]). destruct T. Qed.

Lemma round_int z k : near (IZR z) k -> k = z.
Proof.
  intros H. unfold near in H. rewrite <- minus_IZR, <- abs_IZR in H. assert (Z.abs (z - k) < 1); [|lia]. apply lt_IZR. eapply Rle_lt_trans; [exact H|]. lra.
Qed.
(* the functions on doubles keep integers up to 2^53 *)
Lemma through_ok rnd I t z : rounds rnd I -> (forall k, I (IZR z) k -> k = z) -> In t loop_types -> typed t (VI z) -> Z.abs z <= 2 ^ 53 ->
  cast t (VF (to_integer F64 rnd (dbl z))) = Some (VI z).
Proof.
  intros Ro HI T [Ft Tz] B. destruct (normalize_int F64 z false eq_refl B) as [[_ V] D]. fold (dbl z) in *. change (SpecFloat.binary_normalize (prec F64) (emax F64) z 0 false) with (dbl z) in *.
  destruct (to_integer_ok rnd I F64 (dbl z) (IZR z) Ro eq_refl V D) as (_ & k & [Df Dr] & Ik). apply HI in Ik. subst k.
  assert (E : ftrunc (to_integer F64 rnd (dbl z)) = Some z). { rewrite ftrunc_R by auto. rewrite Dr. now rewrite Ztrunc_IZR. }
  repeat (destruct T as [<-|T]; [try discriminate Ft; unfold cast; rewrite E; match goal with |- (if ?c then _ else _) = _ => replace c with true by lia end; reflexivity|]). destruct T.
Qed.

Ltac pick H := repeat match type of H with In _ (_ :: _) => destruct H as [<- | H] | In _ [] => destruct H end.
(* the results on floats *)
Lemma float_item u f t : In t [F32; F64] -> valid_binary (prec t) (emax t) f = true ->
  float_result ABS t (VF f) (VF (SFabs f)) /\ float_result FLOOR t (VF f) (VF (FLOOR_OP t f)) /\ float_result CEIL t (VF f) (VF (CEIL_OP t f)) /\
  float_result TRUNC t (VF f) (VF (TRUNC_OP t f)) /\ float_result ROUND t (VF f) (VF (ROUND_OP t f)) /\ float_result ROUND t (VF f) (VF (to_integer t n_even f)) /\
  float_result SQRT t (VF f) (VF (SQRT_OP t f)) /\ u = u :> uop.
Proof.
  intros T V. assert (F : is_float t = true) by (pick T; reflexivity).
  split; [now apply abs_result; auto|]. split; [eapply int_result; [assumption|assumption|exact rounds_floor| |reflexivity|cbn; auto]; now intros r k ->|]. split; [eapply int_result; [assumption|assumption|exact rounds_ceil| |reflexivity|cbn; auto]; now intros r k ->|].
  split; [eapply int_result; [assumption|assumption|exact rounds_trunc| |reflexivity|cbn; auto]; now intros r k ->|]. split; [apply round_result; auto using rounds_away|]. split; [apply round_result; auto using rounds_even|]. split; [now apply sqrt_result|reflexivity].
Qed.
Lemma item_ok c u o t x : get_op_trait u = Some o -> In t loop_types -> right_ops u t -> Forall isbyte x -> len x = size t -> right_item u t x ->
  exists y, calculate c o t x = Some y /\ len y = size t /\ computed u t x y.
Proof.
  intros O T Ro B L Ri. pose proof (dec_typed t x T B L) as Ty. pose proof (not_bool t T) as Nb. unfold right_ops in Ro. unfold right_item in Ri. destruct (dec t x) as [z|f] eqn:D.
  - destruct Ty as [Ft Tz]. rewrite Ft in Ro. destruct Ri as [R1 R2].
    assert (Th : forall rnd I, rounds rnd I -> (forall k, I (IZR z) k -> k = z) -> In u [FLOOR; CEIL; TRUNC; ROUND] ->
       exists y, through t (fun d => to_integer d rnd) (VI z) = Some y /\ len y = size t /\ computed u t x y).
    { intros rnd I HR HI Hu. specialize (R2 Hu). cbn [through]. rewrite (through_ok rnd I t z HR HI T (conj Ft Tz) R2). cbn [option_map]. exists (enc t (VI z)). split; auto. split; [apply enc_len|].
      apply (computed_int u t x z); auto; [now split|]. intros r H. assert (r = z). { pick Hu; cbn [exact1] in H; destruct (Z.abs z <=? 2 ^ 53); congruence. } subst. apply same_residue. now split. }
    destruct Ro as [[-> N64]|[->|Hu]].
    + injection O as <-. cbn [calculate]. rewrite D. cbn [whole].
      assert (W : exists y, c_int t (Z.abs z) = Some y /\ len y = size t /\ computed ABS t x y \/ is_signed t = false).
      { destruct (is_signed t) eqn:Sg; [|exists []; auto]. exists (enc t (VI (wrapT t (Z.abs z)))). left. split.
        - unfold c_int. assert (Q : (bits t <? 32) || ((lo t <=? Z.abs z) && (Z.abs z <=? hi t)) = true); [|now rewrite Q].
          clear - T Sg Tz R1 N64. pick T; try discriminate Sg; try congruence; try reflexivity. specialize (R1 eq_refl eq_refl). cbn [lo hi is_signed bits Z.sub] in *. cbn in Tz. change (bits I32 <? 32) with false. cbn [orb].
          change (lo I32) with (-2147483648) in *. change (hi I32) with 2147483647 in *. change (2 ^ 31) with 2147483648 in R1. lia.
        - split; [apply enc_len|]. pose proof (wrap_residue t (Z.abs z) Ft Nb) as W. apply (computed_int ABS t x z); auto; [eapply residue_typed; eauto|]. intros r H. injection H as <-. auto. }
      destruct W as [y [(W1 & W2 & W3)|Sg]].
      * destruct (is_signed t) eqn:Sg; [eauto|]. exists (enc t (VI z)). split; auto. split; [apply enc_len|]. apply (computed_int ABS t x z); auto; [now split|].
        intros r H. injection H as <-. assert (Z.abs z = z) as ->; [|apply same_residue; now split]. unfold lo in Tz. rewrite Sg in Tz. destruct t; cbn in *; try discriminate; lia.
      * rewrite Sg. exists (enc t (VI z)). split; auto. split; [apply enc_len|]. apply (computed_int ABS t x z); auto; [now split|].
        intros r H. injection H as <-. assert (Z.abs z = z) as ->; [|apply same_residue; now split]. unfold lo in Tz. rewrite Sg in Tz. destruct t; cbn in *; try discriminate; lia.
    + injection O as <-. cbn [calculate]. rewrite D. cbn [whole]. eexists. split; [reflexivity|]. split; [apply enc_len|]. pose proof (wrap_residue t (Z.lnot z) Ft Nb) as W.
      apply (computed_int INVERT t x z); auto; [eapply residue_typed; eauto|]. intros r H. injection H as <-. auto.
    + assert (Hu' := Hu). pick Hu; injection O as <-; cbn [calculate]; rewrite D; [apply (Th n_floor _ rounds_floor)|apply (Th n_ceil _ rounds_ceil)|apply (Th n_trunc _ rounds_trunc)|apply (Th n_away _ rounds_away)]; auto;
        intros k Hk; subst; rewrite ?Zfloor_IZR, ?Zceil_IZR, ?Ztrunc_IZR; auto. now apply round_int.
  - destruct Ty as [Ft Tv]. rewrite Ft in Ro. pose proof (float_types t T Ft) as T'. destruct (float_item u f t T' Tv) as (F1 & F2 & F3 & F4 & F5 & F6 & F7 & _).
    pick Ro; injection O as <-; cbn [calculate]; rewrite D; cbn [whole through]; (eexists; split; [reflexivity|]; split; [apply enc_len|]; eapply computed_float; eauto).
Qed.
Lemma wide_ok u o t v : get_op_trait u = Some o -> In t loop_types -> right_ops u t -> wide o t = Some v ->
  exists g, v = each_lane t g /\ (forall w, len (g w) = size t) /\ forall x, Forall isbyte x -> len x = size t -> computed u t x (g (dec t x)).
Proof.
  intros O T Ro W. assert (Nb : t <> Bool) by now apply not_bool.
  destruct (is_float t) eqn:Ft.
  - pose proof (float_types t T Ft) as T'. unfold right_ops in Ro. rewrite Ft in Ro.
    assert (Fl : forall h, (forall f, valid_binary (prec t) (emax t) f = true -> float_result u t (VF f) (VF (h f))) -> Some v = Some (each_lane t (fun v => enc t (VF (h (as_f v))))) ->
      exists g, v = each_lane t g /\ (forall w, len (g w) = size t) /\ forall x, Forall isbyte x -> len x = size t -> computed u t x (g (dec t x))).
    { intros h H E. exists (fun v => enc t (VF (h (as_f v)))). split; [congruence|]. split; [intros; apply enc_len|]. intros x B L. pose proof (dec_typed t x T B L) as Ty. destruct (dec t x) as [z|f] eqn:D; destruct Ty as [Ft' Ty]; [congruence|].
      cbn [as_f]. eapply computed_float; eauto. }
    pick Ro; injection O as <-; pick T'; cbn [wide] in W; rewrite <- W in Fl; (eapply Fl; [|reflexivity]); intros f V; match type of V with valid_binary (prec ?t) _ _ = _ => destruct (float_item ABS f t ltac:(cbn; auto) V) as (F1 & F2 & F3 & F4 & F5 & F6 & F7 & _); assumption end.
  - unfold right_ops in Ro. rewrite Ft in Ro. destruct Ro as [[-> N64]|[->|Hu]].
    + injection O as <-. pick T; try discriminate Ft; try discriminate W; try congruence; cbn [wide] in W; injection W as <-; (eexists; split; [reflexivity|]; split; [intros; apply enc_len|]; intros x B L);
      match goal with |- computed _ ?t _ _ => pose proof (dec_typed t x ltac:(cbn; auto 12) B L) as Ty; destruct (dec t x) as [z|f] eqn:D; destruct Ty as [Ft' Ty]; [|discriminate Ft']; cbn [as_z]; pose proof (wrap_residue t (Z.abs z) Ft Nb) as W;
        apply (computed_int ABS t x z); auto; [eapply residue_typed; eauto|]; intros r H; injection H as <-; auto end.
    + injection O as <-. discriminate W.
    + pick Hu; injection O as <-; pick T; try discriminate Ft; discriminate W.
Qed.
