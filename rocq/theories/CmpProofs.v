(** The vector loops of the comparisons compare item by item. *)
From Coq Require Import SpecFloat.
From Verif Require Import RedModel RedProofs.
From Verif Require Import Base Mem MemLemmas Par ConvModel ConvSpec TwoModel TwoProofs CmpModel.
Local Open Scope Z_scope.

(** ** Lookup tables *)
Lemma movemask_range m : 0 <= movemask m < 2 ^ Z.of_nat (length m).
Proof.
  induction m as [|x m IH]; cbn [movemask length]; [cbn; lia|].
  rewrite Nat2Z.inj_succ, Z.pow_succ_r by lia. destruct (x <? 0); lia.
Qed.
Lemma movemask_bit m : forall j, Z.testbit (movemask m) (Z.of_nat j) = match nth_error m j with Some x => x <? 0 | None => false end.
Proof.
  induction m as [|x m IH]; intros j; cbn [movemask]; [now destruct j; rewrite Z.bits_0|].
  destruct j as [|j].
  - cbn [nth_error]. rewrite Z.bit0_odd, Z.odd_add_mul_2. now destruct (x <? 0).
  - cbn [nth_error]. rewrite Nat2Z.inj_succ. rewrite <- IH. rewrite Z.add_comm. destruct (x <? 0); [apply Z.testbit_odd_succ|rewrite Z.add_0_r; apply Z.testbit_even_succ]; lia.
Qed.
Lemma LUT_ok m : LUT (length m) (Z.land (movemask m) (2 ^ Z.of_nat (length m) - 1)) = map (fun v => b2z (v <? 0)) m.
Proof.
  replace (2 ^ Z.of_nat (length m) - 1) with (Z.ones (Z.of_nat (length m))) by (rewrite Z.ones_equiv; lia).
  rewrite Z.land_ones by lia. rewrite Z.mod_small by apply movemask_range.
  unfold LUT. apply list_ext. intros i. rewrite !nth_error_map, nth_error_seq.
  destruct (Nat.ltb_spec i (length m)) as [I|I]; cbn [option_map].
  - destruct (nth_error m i) as [x|] eqn:E; [|apply nth_error_None in E; lia]. cbn [option_map]. f_equal. rewrite Nat.add_0_l.
    replace (Z.land (Z.shiftr (movemask m) (Z.of_nat i)) 1) with (b2z (Z.testbit (movemask m) (Z.of_nat i))).
    + now rewrite movemask_bit, E.
    + change 1 with (Z.ones 1). rewrite Z.land_ones by lia. change (2 ^ 1) with 2. rewrite <- Z.bit0_mod.
      rewrite Z.shiftr_spec by lia. rewrite Z.add_0_l. now destruct (Z.testbit _ _).
  - apply nth_error_None in I. now rewrite I.
Qed.
Lemma LUTInverse_ok m : LUTInverse (length m) (Z.land (movemask m) (2 ^ Z.of_nat (length m) - 1)) = map (fun v => b2z (negb (v <? 0))) m.
Proof. unfold LUTInverse. rewrite LUT_ok, map_map. apply map_ext. intros v. now destruct (v <? 0). Qed.

Lemma mask_b (b : bool) : ((if b then -1 else 0) <? 0) = b. Proof. now destruct b. Qed.
Lemma cmp_not x y : negb (x <? y) = (y <=? x). Proof. rewrite Z.ltb_antisym. now rewrite negb_involutive. Qed.
Lemma cmpeq_length x y : length x = length y -> length (cmpeq x y) = length x. Proof. apply map2_length. Qed.
Lemma cmpgt_length x y : length x = length y -> length (cmpgt x y) = length x. Proof. apply map2_length. Qed.

Lemma COMP_lut_lane n o : lanewise n (COMP_lut n o) (fun x y => b2z (COMP_Z o x y)).
Proof.
  intros x y Lx Ly. unfold COMP_lut. cbv zeta.
  assert (E1 : length (cmpeq x y) = n) by (rewrite cmpeq_length; congruence).
  assert (E2 : length (cmpgt x y) = n) by (rewrite cmpgt_length; congruence).
  assert (E3 : length (cmpgt y x) = n) by (rewrite cmpgt_length; congruence).
  destruct o.
  - rewrite <- E1 at 1 2. rewrite LUT_ok. unfold cmpeq. rewrite map_map2. apply map2_ext. intros. now rewrite mask_b.
  - rewrite <- E1 at 1 2. rewrite LUTInverse_ok. unfold cmpeq. rewrite map_map2. apply map2_ext. intros. now rewrite mask_b.
  - rewrite <- E2 at 1 2. rewrite LUT_ok. unfold cmpgt. rewrite map_map2. apply map2_ext. intros. now rewrite mask_b.
  - rewrite <- E3 at 1 2. rewrite LUTInverse_ok. unfold cmpgt. rewrite map_map2. rewrite map2_swap. apply map2_ext. intros. rewrite mask_b. cbn. now rewrite cmp_not.
  - rewrite <- E3 at 1 2. rewrite LUT_ok. unfold cmpgt. rewrite map_map2. rewrite map2_swap. apply map2_ext. intros. now rewrite mask_b.
  - rewrite <- E2 at 1 2. rewrite LUTInverse_ok. unfold cmpgt. rewrite map_map2. apply map2_ext. intros. rewrite mask_b. cbn. now rewrite cmp_not.
Qed.
Lemma COMP_mask_eq o x y : COMP_mask o x y = map2 (fun x y => b2z (COMP_Z o x y)) x y.
Proof.
  unfold COMP_mask. cbv zeta. destruct o; unfold cmpeq, cmpgt; rewrite map_map2; try (rewrite map2_swap; apply map2_ext; intros a b _ _; cbn [COMP_Z]; rewrite <- ?cmp_not; now destruct (_ <? _));
    apply map2_ext; intros a b _ _; cbn [COMP_Z]; rewrite <- ?cmp_not; [now destruct (_ =? _)|now destruct (_ =? _)|now destruct (_ <? _)|now destruct (_ <? _)].
Qed.
Lemma COMP_mask_lane n o : lanewise n (COMP_mask o) (fun x y => b2z (COMP_Z o x y)).
Proof. intros x y _ _. apply COMP_mask_eq. Qed.
Lemma COMP16_lane o : lanewise 16 (COMP16 o) (fun x y => b2z (COMP_Z o x y)).
Proof.
  intros x y Lx Ly. unfold COMP16. cbv zeta. rewrite COMP_mask_eq.
  set (m := map2 _ x y). assert (L : length m = 16%nat) by (unfold m; rewrite map2_length; congruence).
  assert (S : Forall (fun v => sat8 v = v) m).
  { unfold m, map2. apply Forall_forall. intros v I. apply in_map_iff in I as ([a b] & <- & _). now destruct (COMP_Z _ _ _). }
  assert (Id : forall l, Forall (fun v => sat8 v = v) l -> map sat8 l = l).
  { induction 1 as [|v l E F IH]; [reflexivity|]. cbn [map]. now rewrite E, IH. }
  rewrite !Id.
  - rewrite firstn_app, skipn_length, L. cbn [Nat.sub]. rewrite firstn_O, app_nil_r. rewrite (firstn_all2 (skipn 8 m)) by (rewrite skipn_length; lia).
    apply firstn_skipn.
  - rewrite firstn_app, skipn_length, L. cbn [Nat.sub]. rewrite firstn_O, app_nil_r. rewrite (firstn_all2 (skipn 8 m)) by (rewrite skipn_length; lia).
    rewrite <- (firstn_skipn 8 m) in S. apply Forall_app in S. tauto.
  - rewrite <- (firstn_skipn 8 m) in S. apply Forall_app in S. tauto.
Qed.

(** ** 32 comparisons at once *)
Lemma list_S {A} n (l : list A) : length l = S n -> exists x r, l = x :: r /\ length r = n.
Proof. destruct l as [|x r]; intros E; [discriminate|]. exists x, r. split; [reflexivity|]. now injection E. Qed.
Lemma eqs_bit (b : bool) : Z.land ((if b then -1 else 0) mod 256) 1 = b2z b. Proof. now destruct b. Qed.
Definition EQS_of (m : list Z) : list Z :=
  let part k := shuffle_epi8 (bytes32 (slice (8 * k) 8 m)) (g_shuffle k) in
  map (fun v => Z.land v 1) (permute32 (or256 (or256 (part 0%nat) (part 1%nat)) (or256 (part 2%nat) (part 3%nat)))).
Definition mask (b : bool) : Z := if b then -1 else 0.
Lemma EQS_bools bs : length bs = 32%nat -> EQS_of (map mask bs) = map b2z bs.
Proof.
  intros L. do 32 (let b := fresh "b" in let r := fresh "r" in let E := fresh in apply list_S in L as (b & r & E & L); subst bs; rename r into bs).
  destruct bs; [|discriminate]. clear L.
  unfold EQS_of. cbv zeta. cbv [g_shuffle g_permute repeat app map slice skipn firstn Nat.mul Nat.add Nat.sub bytes32 concat].
  set (P := permute32). cbv [shuffle_epi8 skipn firstn map app]. cbv [Z.leb Z.compare Pos.compare Pos.compare_cont]. cbv [nth Z.to_nat Pos.to_nat Pos.iter_op Nat.add].
  cbv [or256 map2 combine map fst snd]. subst P. cbv [permute32 g_permute map slice skipn firstn Nat.mul Nat.add concat app].
  repeat (match goal with |- _ :: _ = _ :: _ => apply f_equal2; [match goal with |- context [mask ?b] => destruct b; reflexivity end|] end). reflexivity.
Qed.
Lemma COMP32i_EQS_lane : lanewise 32 COMP32i_EQS (fun x y => b2z (COMP_Z EQ x y)).
Proof.
  intros x y Lx Ly. transitivity (EQS_of (map mask (map2 Z.eqb x y))).
  - unfold COMP32i_EQS, EQS_of. cbv zeta. rewrite !slice_map, !slice_map2. unfold cmpeq. now rewrite !map_map2.
  - rewrite EQS_bools by (rewrite map2_length; congruence). now rewrite map_map2.
Qed.
Lemma fp_lut_lane n o : lanewise n (fp_lut n o) (fun x y => b2z (COMP_F o x y)).
Proof.
  intros x y Lx Ly. unfold fp_lut.
  assert (E1 : length (cmp_fp o x y) = n) by (unfold cmp_fp; rewrite map2_length; congruence).
  rewrite <- E1 at 1 2. rewrite LUT_ok. unfold cmp_fp. rewrite map_map2. apply map2_ext. intros a b _ _.
  destruct a, b; cbn -[COMP_F]; try (destruct (COMP_F _ _ _); reflexivity); destruct o; reflexivity.
Qed.

(** ** Kernels *)
Lemma CompareVec_apply {E} w (rd : val -> E) v f m xs ys l : (0 < w)%nat -> lanewise w v (fun x y => b2z (f x y)) ->
  apply2 (fun x y => b2z (f (rd x) (rd y))) m xs ys = Some l -> CompareVec w rd v f m xs ys = Some l.
Proof.
  intros W H R. unfold CompareVec, apply2 in *. cbv zeta. destruct m.
  - destruct (Nat.eqb_spec (length xs) (length ys)) as [L|]; [|discriminate]. injection R as <-. f_equal.
    rewrite vec_two by (rewrite ?map_length; assumption). now rewrite map2_map.
  - destruct xs as [|x [|]]; try discriminate. injection R as <-. cbn [map]. f_equal. rewrite (vec_first w v (fun x y => b2z (f x y))) by assumption. now rewrite map_map.
  - destruct ys as [|y [|]]; try discriminate. injection R as <-. cbn [map]. f_equal. rewrite (vec_second w v (fun x y => b2z (f x y))) by assumption. now rewrite map_map.
Qed.
Lemma CompareAny_apply rd f m xs ys l : apply2 (fun x y => b2z (f (rd x) (rd y))) m xs ys = Some l -> CompareAny rd f m xs ys = Some l.
Proof.
  intros R. unfold CompareAny, apply2 in *. destruct m.
  - destruct (Nat.eqb_spec (length xs) (length ys)) as [L|]; [|discriminate]. assumption.
  - destruct xs as [|x [|]]; try discriminate. assumption.
  - destruct ys as [|y [|]]; try discriminate. assumption.
Qed.

