(** What the float reductions return, and where the threaded ones go wrong. *)
From Verif Require Import Base RedModel RedSpec RedProofs Red2Proofs Red3Proofs Red4Proofs.
From Coq Require Import Permutation Lia Reals Lra.
Local Open Scope Z_scope.

Lemma map_id' (l : list (option R)) : map (fun x => x) l = l.
Proof. apply map_id. Qed.
Lemma smallR_some xs : (Rabs_sum xs < IZR (2 ^ 63))%R -> smallR (map Some xs).
Proof. intros H. exists xs. auto. Qed.
Lemma float_sum_ok nt sch xs : xs <> [] -> splits (map Some xs) sch -> (threaded nt (map Some xs) = true -> (Rabs_sum xs < IZR (2 ^ 63))%R) ->
  float_sum nt sch (map Some xs) = PyFloat (Some (Rsum xs)).
Proof.
  intros N P B. unfold float_sum. destruct (map Some xs) as [|y l] eqn:E; [destruct xs; [congruence|discriminate]|]. rewrite <- E in *.
  destruct (work_float (fun x => x) nt sch (map Some xs) P) as [_ H].
  { intros T. rewrite map_id'. apply smallR_some. auto. }
  rewrite map_id', SR_some in H. f_equal. exact H.
Qed.
Lemma float_sum_nan nt sch l : splits l sch -> has_nan l -> float_sum nt sch l = PyFloat None.
Proof.
  intros P N. unfold float_sum. destruct l as [|y r] eqn:E; [destruct N|]. rewrite <- E in *. f_equal.
  apply float_bad; [assumption|]. exists None. auto.
Qed.
Lemma float_nansum_ok nt sch l : l <> [] -> splits l sch -> (threaded nt l = true -> (Rabs_sum (reals l) < IZR (2 ^ 63))%R) ->
  float_nansum nt sch l = PyFloat (Some (Rsum (reals l))).
Proof.
  intros N P B. unfold float_nansum. destruct l as [|y r] eqn:E; [congruence|]. rewrite <- E in *.
  destruct (work_nan (fun x => x) nt sch l P) as [_ H].
  { intros T. rewrite map_id'. apply smallR_some. auto. }
  rewrite map_id', SR_some in H. f_equal. exact H.
Qed.

Lemma mean_calc_ok nanf nt sch l : (nanf = false -> ~ has_nan l) -> splits l sch ->
  (threaded nt l = true -> (Rabs_sum (reals l) < IZR (2 ^ 63))%R) -> reals l <> [] ->
  mean_calc nanf nt sch l = Some (Rmean (reals l)).
Proof.
  intros NN P B N. unfold mean_calc. cbv zeta.
  assert (H : lenOut (WorkSum RealD (first_kernel nanf) nt sch l (sg0 RealD)) = Z.of_nat (length (reals l)) /\
              resultOut (WorkSum RealD (first_kernel nanf) nt sch l (sg0 RealD)) = Some (Rsum (reals l))).
  { destruct nanf; cbn [first_kernel].
    - destruct (work_nan (fun x => x) nt sch l P) as [H1 H2].
      { intros T. rewrite map_id'. apply smallR_some. auto. }
      rewrite map_id', SR_some in H2. auto.
    - destruct (some_or_nan l) as [(xs & ->)|C]; [|now apply NN in C]. rewrite reals_some in *.
      destruct (work_float (fun x => x) nt sch (map Some xs) P) as [H1 H2].
      { intros T. rewrite map_id'. apply smallR_some. auto. }
      rewrite map_id', SR_some in H2. rewrite map_length in H1. auto. }
  destruct H as [H1 H2]. rewrite H1.
  destruct (Z.ltb_spec 0 (Z.of_nat (length (reals l)))) as [_|C].
  - replace (resultOut (WorkSum RealD (first_kernel nanf) nt sch l (sg0 RealD))) with (Some (Rsum (reals l))) by (symmetry; exact H2). reflexivity.
  - destruct (reals l); [congruence|cbn in C; lia].
Qed.
Lemma float_mean_ok nanf nt sch l : (nanf = false -> ~ has_nan l) -> splits l sch ->
  (threaded nt l = true -> (Rabs_sum (reals l) < IZR (2 ^ 63))%R) -> reals l <> [] ->
  float_mean nanf nt sch l = PyFloat (Some (Rmean (reals l))).
Proof.
  intros. unfold float_mean. destruct l; [cbn in *; congruence|]. f_equal. now apply mean_calc_ok.
Qed.
Lemma mean_calc_nan nt sch l : splits l sch -> has_nan l -> mean_calc false nt sch l = None.
Proof.
  intros P N. unfold mean_calc. cbv zeta.
  assert (L : lenOut (WorkSum RealD (first_kernel false) nt sch l (sg0 RealD)) = Z.of_nat (length l)).
  { apply (WorkSum_len RealD _ (fun b => Z.of_nat (length b))); auto.
    - intros. rewrite app_length. lia.
    - intros a b Q. now rewrite (Permutation_length Q). }
  assert (H : resultOut (WorkSum RealD (first_kernel false) nt sch l (sg0 RealD)) = None).
  { apply (float_bad (fun x => x)); [assumption|]. exists None. auto. }
  rewrite L. destruct (Z.ltb_spec 0 (Z.of_nat (length l))) as [_|C].
  - set (o := resultOut _) in *. replace o with (@None R) by (symmetry; exact H). reflexivity.
  - destruct l; [destruct N|cbn in C; lia].
Qed.
Lemma float_mean_nan nt sch l : splits l sch -> has_nan l -> float_mean false nt sch l = PyFloat None.
Proof. intros P N. unfold float_mean. destruct l; [destruct N|]. f_equal. now apply mean_calc_nan. Qed.

Lemma dist2_some m xs : map (dist2 (Some m)) (map Some xs) = map Some (map (fun x => (x - m) * (x - m))%R xs).
Proof. rewrite !map_map. reflexivity. Qed.
Lemma sq_abs m xs : Rabs_sum (map (fun x => (x - m) * (x - m))%R xs) = Rsum (map (fun x => (x - m) * (x - m))%R xs).
Proof.
  unfold Rabs_sum. rewrite map_map. f_equal. apply map_ext. intros x. apply Rabs_right.
  pose proof (Rle_0_sqr (x - m)) as H. unfold Rsqr in H. lra.
Qed.
Lemma float_var_ok f32 nanf std nt sch1 sch2 ddof l : l <> [] -> (nanf = false -> ~ has_nan l) -> splits l sch1 -> splits l sch2 ->
  (threaded nt l = true -> (Rabs_sum (reals l) < IZR (2 ^ 63))%R) ->
  (threaded nt l = true -> nanf || negb f32 = true -> (Rsum (sq_dev (reals l)) < IZR (2 ^ 63))%R) ->
  float_var f32 nanf std nt sch1 sch2 ddof l =
  PyFloat (if ddof <? Z.of_nat (length (reals l)) then Some (if std then sqrt (Rvar ddof (reals l)) else Rvar ddof (reals l)) else None).
Proof.
  intros N NN P1 P2 B1 B2. unfold float_var. destruct l as [|y r] eqn:E; [congruence|]. rewrite <- E in *. clear E. cbv zeta.
  assert (H : exists m, mean_calc nanf nt sch1 l = Some m /\ (m = Rmean (reals l) \/ reals l = [])).
  { destruct (reals l) as [|x q] eqn:E.
    - exists 0%R. split; [|auto]. destruct nanf.
      + unfold mean_calc. cbv zeta. cbn [first_kernel].
        destruct (work_nan (fun x => x) nt sch1 l P1) as [H1 H2].
        { intros T. rewrite map_id'. apply smallR_some. rewrite E in *. auto. }
        rewrite H1, E. reflexivity.
      + destruct (some_or_nan l) as [(xs & ->)|C]; [|now apply NN in C]. rewrite reals_some in E. subst xs. cbn in N. congruence.
    - exists (Rmean (reals l)). rewrite <- E in *. split; [|auto]. apply mean_calc_ok; try assumption. rewrite E. discriminate. }
  destruct H as (m & -> & M).
  assert (SQ : map (fun x => (x - m) * (x - m))%R (reals l) = sq_dev (reals l)).
  { destruct M as [-> | M]; [reflexivity|]. now rewrite M. }
  assert (H : lenOut (WorkSum RealD (var_kernel f32 nanf (Some m)) nt sch2 l (sg0 RealD)) = Z.of_nat (length (reals l)) /\
              resultOut (WorkSum RealD (var_kernel f32 nanf (Some m)) nt sch2 l (sg0 RealD)) = Some (Rsum (sq_dev (reals l)))).
  { assert (SM : nanf || negb f32 = true -> threaded nt l = true -> smallR (map (dist2 (Some m)) (map Some (reals l)))).
    { intros F T. rewrite dist2_some, SQ. apply smallR_some. rewrite <- SQ, sq_abs, SQ. auto. }
    unfold var_kernel. destruct nanf.
    - destruct (work_nan (dist2 (Some m)) nt sch2 l P2) as [H1 H2]; [now apply SM|].
      rewrite dist2_some, SQ, SR_some in H2. auto.
    - destruct (some_or_nan l) as [(xs & ->)|C]; [|now apply NN in C]. rewrite reals_some in *.
      assert (F : forall x, In x xs -> dist2 (Some m) (Some x) <> None) by (intros; discriminate).
      destruct f32.
      + destruct (work_var32 (dist2 (Some m)) nt sch2 xs P2 F) as [H1 H2]. rewrite dist2_some, SQ, SR_some in H2. auto.
      + destruct (work_slow (dist2 (Some m)) nt sch2 xs P2 F) as [H1 H2]; [now apply SM|]. rewrite dist2_some, SQ, SR_some in H2. auto. }
  destruct H as [H1 H2]. rewrite H1. destruct (ddof <? Z.of_nat (length (reals l))); [|reflexivity].
  set (o := resultOut _) in *. replace o with (Some (Rsum (sq_dev (reals l)))) by (symmetry; exact H2).
  unfold Rvar. destruct std; reflexivity.
Qed.
Lemma float_var_nan f32 std nt sch1 sch2 ddof l : splits l sch1 -> splits l sch2 -> has_nan l ->
  float_var f32 false std nt sch1 sch2 ddof l = PyFloat None.
Proof.
  intros P1 P2 N. unfold float_var. destruct l as [|y r] eqn:E; [destruct N|]. rewrite <- E in *. clear E. cbv zeta.
  rewrite (mean_calc_nan nt sch1 l P1 N). unfold var_kernel.
  set (s := WorkSum _ _ _ _ _ _).
  assert (H : resultOut s = None).
  { unfold s. destruct f32; [apply var32_bad|apply slow_bad]; auto; exists None; auto. }
  set (o := resultOut s) in *. replace o with (@None R) by (symmetry; exact H).
  destruct (ddof <? lenOut s); [|reflexivity]. now destruct std.
Qed.

(** * Arrays big enough to be threaded *)
Definition half : nat := Z.to_nat WORK_ITEM_CHUNK.
Lemma half_Z : Z.of_nat half = 16384.
Proof. unfold half. rewrite Z2Nat.id; [reflexivity|unfold WORK_ITEM_CHUNK; lia]. Qed.
Lemma threaded_big {V} (l : list V) : length l = (half + half)%nat -> threaded false l = true.
Proof. intros E. unfold threaded. rewrite E, Nat2Z.inj_add, half_Z. reflexivity. Qed.
Lemma Rsum_repeat x n : Rsum (repeat x n) = (IZR (Z.of_nat n) * x)%R.
Proof.
  induction n as [|n IH]; [cbn; lra|]. cbn [repeat]. unfold Rsum in *. cbn [fold_right]. rewrite IH, Nat2Z.inj_succ, succ_IZR. lra.
Qed.
Lemma repeat_some {X} (x : X) n : repeat (Some x) n = map Some (repeat x n).
Proof. induction n; cbn; [reflexivity|]. now rewrite IHn. Qed.
Lemma half_ne {X} (x : X) : repeat x half <> [].
Proof. intros E. apply (f_equal (@length X)) in E. rewrite repeat_length in E. cbn [length] in E. pose proof half_Z. rewrite E in H. cbn in H. lia. Qed.
Lemma Rtrunc_IZR z : 0 <= z -> Rtrunc (IZR z) = z.
Proof.
  intros H. unfold Rtrunc. destruct (Rle_dec 0 (IZR z)) as [_|C]; [|apply IZR_le in H; lra].
  destruct (base_Int_part (IZR z)) as [H1 H2].
  apply le_IZR in H1. assert (IZR (Int_part (IZR z)) > IZR (z - 1))%R by (rewrite minus_IZR; lra).
  apply Rgt_lt, lt_IZR in H0. lia.
Qed.

(** 2^50 in every place: the sum of a block is 2^64 *)
Definition big : list (option R) := repeat (Some (IZR (2 ^ 50))) half.
Lemma SR_big : SR big = Some (IZR (2 ^ 64)).
Proof.
  unfold big. rewrite repeat_some, SR_some, Rsum_repeat, half_Z. rewrite <- mult_IZR. reflexivity.
Qed.
Lemma toI_big : toI RealD (Some (IZR (2 ^ 64))) = INT64_MIN.
Proof. cbn [toI RealD]. rewrite Rtrunc_IZR by lia. reflexivity. Qed.
Lemma add_big (s : sg RealD) : AddFloat RealD (fun x => x) big s = SG (lenOut s + 16384) (plus RealD (resultOut s) (Some (IZR (2 ^ 64)))) (wrap64 (resultInt s + INT64_MIN)).
Proof.
  unfold AddFloat. cbv zeta. rewrite (aggR _ _ (vec_sum_agg RealD (fun x => x) big)), map_id', SR_big, toI_big.
  unfold big at 1. now rewrite repeat_length, half_Z.
Qed.
Lemma big2 : length (big ++ big) = (half + half)%nat.
Proof. unfold big. now rewrite app_length, !repeat_length. Qed.
Lemma float_sum_refuted : exists xs sch1 sch2, splits (map Some xs) sch1 /\ splits (map Some xs) sch2 /\
  float_sum false sch1 (map Some xs) = PyFloat None /\ float_sum false sch2 (map Some xs) = PyFloat (Some (Rsum xs)).
Proof.
  exists (repeat (IZR (2 ^ 50)) half ++ repeat (IZR (2 ^ 50)) half), [[big]; [big]], [[big; big]].
  assert (E : map Some (repeat (IZR (2 ^ 50)) half ++ repeat (IZR (2 ^ 50)) half) = big ++ big) by (unfold big; now rewrite map_app, !repeat_some).
  rewrite E. assert (T := threaded_big _ big2). assert (NE : big <> []) by apply half_ne.
  assert (C : exists y r, big ++ big = y :: r) by (destruct big; [congruence|cbn; eauto]). destruct C as (y & r & C).
  assert (S64 : forall a b, Some a = Some b -> @PyFloat (option R) (Some a) = PyFloat (Some b)) by (intros; congruence).
  split; [|split; [|split]].
  - split; [cbn [map concat]; rewrite !app_nil_r; reflexivity|]. repeat constructor; assumption.
  - split; [cbn [map concat]; rewrite !app_nil_r; reflexivity|]. repeat constructor; assumption.
  - unfold float_sum. rewrite C. rewrite <- C. unfold WorkSum. rewrite T. cbn [map fold_left]. rewrite !add_big. cbn [sg0 lenOut resultOut resultInt].
    replace (wrap64 (0 + INT64_MIN)) with INT64_MIN by reflexivity.
    reflexivity.
  - unfold float_sum. rewrite C. rewrite <- C. unfold WorkSum. rewrite T. cbn [map fold_left]. rewrite !add_big. cbn [sg0 lenOut resultOut resultInt].
    replace (wrap64 (wrap64 (0 + INT64_MIN) + INT64_MIN)) with 0 by reflexivity.
    rewrite Rsum_app, Rsum_repeat, half_Z.
    change (@PyFloat (option R) (Some (0 + (0 + IZR (2 ^ 64) + IZR (2 ^ 64)))%R) = PyFloat (Some (IZR 16384 * IZR (2 ^ 50) + IZR 16384 * IZR (2 ^ 50))%R)).
    do 2 f_equal. rewrite <- !mult_IZR. change (16384 * 2 ^ 50) with (2 ^ 64). lra.
Qed.

(** half the values 2^25, half -2^25: the mean is 0 and the squares of a block sum to 2^64 *)
Definition up25 : list (option R) := repeat (Some (IZR (2 ^ 25))) half.
Definition dn25 : list (option R) := repeat (Some (IZR (- 2 ^ 25))) half.
Definition pm25 : list R := repeat (IZR (2 ^ 25)) half ++ repeat (IZR (- 2 ^ 25)) half.
Lemma pm25_map : map Some pm25 = up25 ++ dn25.
Proof. unfold pm25, up25, dn25. now rewrite map_app, !repeat_some. Qed.
Lemma Rabs_sum_repeat x n : Rabs_sum (repeat x n) = (IZR (Z.of_nat n) * Rabs x)%R.
Proof. unfold Rabs_sum. assert (E : map Rabs (repeat x n) = repeat (Rabs x) n) by (induction n; cbn; [reflexivity|now rewrite IHn]). rewrite E. apply Rsum_repeat. Qed.
Lemma pm25_mean : Rmean pm25 = 0%R.
Proof.
  unfold Rmean, pm25. rewrite Rsum_app, !Rsum_repeat, half_Z.
  replace (IZR 16384 * IZR (2 ^ 25) + IZR 16384 * IZR (- 2 ^ 25))%R with 0%R; [unfold Rdiv; lra|].
  rewrite opp_IZR. lra.
Qed.
Lemma block25 x (s : sg RealD) : (x * x = IZR (2 ^ 50))%R -> resultOut s = Some 0%R ->
  AddSlow RealD rvalid (dist2 (Some 0%R)) (repeat (Some x) half) s = @SG RealD (lenOut s + 16384) (Some (IZR (2 ^ 64))) INT64_MIN.
Proof.
  intros X S0. unfold AddSlow. cbv zeta. rewrite S0.
  assert (E : slow_sum RealD rvalid (dist2 (Some 0%R)) (repeat (Some x) half) (zero RealD) = Some (IZR (2 ^ 64))).
  { rewrite slow_sum_fold by (intros y Y; apply repeat_spec in Y; subst; reflexivity).
    rewrite foldR, repeat_some, dist2_some, SR_some.
    assert (M : map (fun x0 => (x0 - 0) * (x0 - 0))%R (repeat x half) = repeat (IZR (2 ^ 50)) half).
    { generalize half. induction n; [reflexivity|]. cbn [map repeat]. f_equal; [|assumption]. rewrite <- X. lra. }
    rewrite M, Rsum_repeat, half_Z, <- mult_IZR. reflexivity. }
  rewrite E, add_zeroR. rewrite repeat_length, half_Z. f_equal.
  unfold cast_i64. cbn [isnan RealD]. apply toI_big.
Qed.
Lemma float_var_refuted : exists xs sch, splits (map Some xs) sch /\
  float_var false false false true [] [] 1 (map Some xs) = PyFloat (Some (Rvar 1 xs)) /\
  float_var false false false false sch sch 1 (map Some xs) = PyFloat None.
Proof.
  assert (NU : up25 <> []) by apply half_ne. assert (ND : dn25 <> []) by apply half_ne.
  assert (NE : map Some pm25 <> []) by (rewrite pm25_map; destruct up25; [congruence|discriminate]).
  assert (L : length (up25 ++ dn25) = (half + half)%nat) by (unfold up25, dn25; now rewrite app_length, !repeat_length).
  assert (SP : splits (map Some pm25) [[up25]; [dn25]]).
  { rewrite pm25_map. split; [cbn [map concat]; rewrite !app_nil_r; reflexivity|]. repeat constructor; assumption. }
  assert (LP : length pm25 = (half + half)%nat) by (unfold pm25; now rewrite app_length, !repeat_length).
  exists pm25, [[up25]; [dn25]]. split; [assumption|]. split.
  - unfold float_var. destruct (map Some pm25) as [|y r] eqn:E; [congruence|]. rewrite <- E. clear E. cbv zeta.
    assert (M : mean_calc false true [] (map Some pm25) = Some 0%R).
    { unfold mean_calc. cbv zeta. unfold WorkSum. cbn [threaded negb andb].
      destruct (single_float (fun x : option R => x) (map Some pm25)) as [H1 H2]. unfold first_kernel.
      rewrite map_id', SR_some in H2. rewrite map_length in H1. rewrite H1.
      destruct (Z.ltb_spec 0 (Z.of_nat (length pm25))) as [_|C]; [|rewrite LP, Nat2Z.inj_add, half_Z in C; lia].
      set (o := resultOut _) in *. clearbody o. rewrite H2. cbn [rdiv].
      change (Some (Rmean pm25) = Some 0%R). now rewrite pm25_mean. }
    rewrite M. unfold WorkSum. cbn [threaded negb andb]. cbn [var_kernel].
    destruct (single_slow (dist2 (Some 0%R)) pm25) as [H1 H2]. specialize (H2 ltac:(intros; discriminate)).
    rewrite dist2_some, SR_some in H2.
    set (s := AddSlow _ _ _ _ _) in *. rewrite H1, LP, Nat2Z.inj_add, half_Z. cbn [Z.ltb Z.compare Z.add Pos.add Pos.succ Pos.add_carry].
    set (o := resultOut s) in *. clearbody o. rewrite H2.
    unfold Rvar, sq_dev. rewrite pm25_mean, LP, Nat2Z.inj_add, half_Z. reflexivity.
  - unfold float_var. destruct (map Some pm25) as [|y r] eqn:E; [congruence|]. rewrite <- E in *. clear E. cbv zeta.
    assert (M : mean_calc false false [[up25]; [dn25]] (map Some pm25) = Some 0%R).
    { rewrite mean_calc_ok; rewrite ?reals_some.
      - now rewrite pm25_mean.
      - intros _ C. unfold has_nan in C. apply in_map_iff in C as (? & C & _). discriminate.
      - assumption.
      - intros _. unfold pm25. rewrite Rabs_sum_app, !Rabs_sum_repeat, half_Z, opp_IZR, Rabs_Ropp.
        rewrite Rabs_right by (apply Rle_ge; apply (IZR_le 0); lia). rewrite <- !mult_IZR, <- plus_IZR. apply IZR_lt. reflexivity.
      - intros C. rewrite C in LP. cbn [length] in LP. pose proof half_Z. lia. }
    rewrite M. unfold WorkSum. rewrite pm25_map, (threaded_big _ L). cbn [var_kernel map fold_left]. unfold up25, dn25.
    rewrite (block25 (IZR (2 ^ 25)) (sg0 RealD)) by (rewrite <- ?mult_IZR; reflexivity).
    rewrite (block25 (IZR (- 2 ^ 25)) (sg0 RealD)) by (rewrite <- ?mult_IZR; reflexivity).
    reflexivity.
Qed.
