(** Sums, means and variances of floats (over the reals). *)
From Verif Require Import Base RedModel RedSpec RedProofs Red2Proofs Red3Proofs.
From Coq Require Import Permutation Lia Reals Lra.
Local Open Scope Z_scope.

Lemma Rsum_app a b : Rsum (a ++ b) = (Rsum a + Rsum b)%R.
Proof. unfold Rsum. induction a as [|x a IH]; cbn; [lra|]. rewrite IH. lra. Qed.
Lemma Rsum_perm a b : Permutation a b -> Rsum a = Rsum b.
Proof. unfold Rsum. induction 1; cbn; lra. Qed.
Lemma Rabs_sum_app a b : Rabs_sum (a ++ b) = (Rabs_sum a + Rabs_sum b)%R.
Proof. unfold Rabs_sum. now rewrite map_app, Rsum_app. Qed.
Lemma Rabs_sum_perm a b : Permutation a b -> Rabs_sum a = Rabs_sum b.
Proof. intros P. apply Rsum_perm. now apply Permutation_map. Qed.
Lemma Rabs_sum_nonneg a : (0 <= Rabs_sum a)%R.
Proof. unfold Rabs_sum, Rsum. induction a as [|x a IH]; cbn; [lra|]. pose proof (Rabs_pos x). lra. Qed.
Lemma Rabs_sum_le a : (Rabs (Rsum a) <= Rabs_sum a)%R.
Proof.
  unfold Rabs_sum, Rsum. induction a as [|x a IH]; cbn; [rewrite Rabs_R0; lra|].
  pose proof (Rabs_triang x (fold_right Rplus 0 a))%R. lra.
Qed.

Definition SR (d : list (option R)) : option R :=
  fold_right (fun a b => match a, b with Some x, Some y => Some (x + y)%R | _, _ => None end) (Some 0%R) d.
Lemma SR_some xs : SR (map Some xs) = Some (Rsum xs).
Proof. induction xs as [|z zs IH]; [reflexivity|]. cbn [map]. unfold SR in *. cbn [fold_right]. rewrite IH. reflexivity. Qed.
Lemma SR_perm a b : Permutation a b -> SR a = SR b.
Proof.
  induction 1; unfold SR in *; cbn [fold_right]; [reflexivity|now rewrite IHPermutation| |congruence].
  match goal with |- context [fold_right ?g ?e l] => generalize (fold_right g e l) end.
  intros o. destruct x as [x|], y as [y|], o as [z|]; try reflexivity. f_equal. lra.
Qed.
Lemma SR_one (x : option R) : SR [x] = x.
Proof. destruct x; [|reflexivity]. unfold SR. cbn. f_equal. lra. Qed.
Lemma SR_app a b : plus RealD (SR a) (SR b) = SR (a ++ b).
Proof.
  induction a as [|x a IH]; cbn [app].
  - cbn. unfold SR at 2. destruct (SR b) eqn:E; unfold SR in E; rewrite E; [f_equal; lra|reflexivity].
  - change (SR (x :: a ++ b)) with (plus RealD x (SR (a ++ b))). rewrite <- IH.
    change (SR (x :: a)) with (plus RealD x (SR a)).
    destruct x, (SR a), (SR b); cbn; try reflexivity. f_equal. lra.
Qed.
Lemma SR_none d : In None d -> SR d = None.
Proof.
  induction d as [|x d IH]; intros H; [destruct H|]. change (SR (x :: d)) with (plus RealD x (SR d)).
  destruct H as [->|H]; [reflexivity|]. rewrite IH by assumption. now destruct x.
Qed.
Lemma aggR d r : agg (fun op => op = plus RealD) (Some (zero RealD)) d r -> r = SR d.
Proof.
  intros H. apply (agg_S RealD SR (fun _ => True) eq_refl (fun x _ => SR_one x) (fun a b _ => SR_app a b) SR_perm); auto.
Qed.
Lemma foldR d : fold_left (plus RealD) d (zero RealD) = SR d.
Proof. apply (fold_S RealD SR (fun _ => True) eq_refl (fun x _ => SR_one x) (fun a b _ => SR_app a b) SR_perm); auto. Qed.

Lemma some_or_nan (l : list (option R)) : (exists xs, l = map Some xs) \/ has_nan l.
Proof.
  induction l as [|x l [(xs & ->)|H]].
  - left. now exists [].
  - destruct x as [x|]; [left; now exists (x :: xs)|right; now left].
  - right. now right.
Qed.
Lemma reals_some xs : reals (map Some xs) = xs.
Proof. induction xs; cbn; [reflexivity|]. f_equal. assumption. Qed.
Lemma filter_reals l : filter rvalid l = map Some (reals l).
Proof. induction l as [|[x|] l IH]; cbn; [reflexivity| |assumption]. f_equal. assumption. Qed.

(** * Bounded, for the integer side *)
Definition B63 : R := IZR (2 ^ 63).
Definition smallR (d : list (option R)) : Prop := exists xs, d = map Some xs /\ (Rabs_sum xs < B63)%R.
Definition isIR (d : list (option R)) (z : Z) : Prop := forall xs, d = map Some xs -> (Rabs (IZR z) <= Rabs_sum xs)%R.
Lemma map_some_inj (a b : list R) : map Some a = map Some b -> a = b.
Proof. revert b. induction a; intros [|y b] H; try discriminate; [reflexivity|]. injection H as -> H. f_equal. auto. Qed.
Lemma smallR_split a b : smallR (a ++ b) -> exists x y, a = map Some x /\ b = map Some y /\ (Rabs_sum (x ++ y) < B63)%R.
Proof. intros (zs & E & B). symmetry in E. apply map_eq_app in E as (x & y & -> & <- & <-). exists x, y. auto. Qed.
Lemma small_permR a b : Permutation a b -> smallR a -> smallR b.
Proof.
  intros P (zs & -> & B). apply Permutation_sym, Permutation_map_inv in P as (ys & -> & Q). exists ys. split; [reflexivity|].
  rewrite <- (Rabs_sum_perm _ _ Q). assumption.
Qed.
Lemma small_lR a b : smallR (a ++ b) -> smallR a.
Proof.
  intros H. apply smallR_split in H as (x & y & -> & -> & B). exists x. split; [reflexivity|].
  rewrite Rabs_sum_app in B. pose proof (Rabs_sum_nonneg y). lra.
Qed.
Lemma nonanR d : smallR d -> isnan RealD (SR d) = false.
Proof. intros (zs & -> & _). now rewrite SR_some. Qed.
Lemma Rtrunc_abs r : (Rabs (IZR (Rtrunc r)) <= Rabs r)%R.
Proof.
  unfold Rtrunc. destruct (Rle_dec 0 r) as [H|H].
  - destruct (base_Int_part r) as [H1 H2]. rewrite (Rabs_right r) by lra.
    assert (N : (0 <= Int_part r)%Z).
    { destruct (Z_lt_le_dec (Int_part r) 0) as [C|C]; [|assumption]. exfalso.
      assert (C' : (Int_part r <= -1)%Z) by lia. apply IZR_le in C'. lra. }
    apply IZR_le in N. rewrite Rabs_right; lra.
  - destruct (base_Int_part (- r)) as [H1 H2]. rewrite (Rabs_left r) by lra. rewrite opp_IZR, Rabs_Ropp.
    assert (N : (0 <= Int_part (- r))%Z).
    { destruct (Z_lt_le_dec (Int_part (- r)) 0) as [C|C]; [|assumption]. exfalso.
      assert (C' : (Int_part (- r) <= -1)%Z) by lia. apply IZR_le in C'. lra. }
    apply IZR_le in N. rewrite Rabs_right; lra.
Qed.
Lemma abs_range z : (Rabs (IZR z) < B63)%R -> - 2 ^ 63 < z < 2 ^ 63.
Proof.
  unfold B63. intros H. apply Rabs_def2 in H as [H1 H2]. rewrite <- opp_IZR in H2. apply lt_IZR in H1, H2. lia.
Qed.
Lemma toIR d : smallR d -> isIR d (toI RealD (SR d)).
Proof.
  intros (zs & -> & B) ys E. apply map_some_inj in E as <-. rewrite SR_some. cbn [toI RealD].
  pose proof (Rtrunc_abs (Rsum zs)) as T. pose proof (Rabs_sum_le zs) as L.
  assert (RG := abs_range (Rtrunc (Rsum zs)) ltac:(lra)).
  unfold inI64. destruct (Z.leb_spec (- 2 ^ 63) (Rtrunc (Rsum zs))); [|lia].
  destruct (Z.ltb_spec (Rtrunc (Rsum zs)) (2 ^ 63)); [|lia]. cbn [andb]. lra.
Qed.
Lemma appIR a b x y : isIR a x -> isIR b y -> smallR (a ++ b) -> isIR (a ++ b) (x + y).
Proof.
  intros H1 H2 H. apply smallR_split in H as (u & v & -> & -> & B). intros xs E. rewrite <- map_app in E. apply map_some_inj in E as <-.
  rewrite Rabs_sum_app, plus_IZR. specialize (H1 u eq_refl). specialize (H2 v eq_refl). pose proof (Rabs_triang (IZR x) (IZR y)). lra.
Qed.
Lemma permIR a b z : Permutation a b -> isIR a z -> isIR b z.
Proof.
  intros P H ys ->. apply Permutation_map_inv in P as (xs & -> & Q). rewrite (Rabs_sum_perm _ _ Q). now apply H.
Qed.
Lemma rangeIR d z : smallR d -> isIR d z -> - 2 ^ 63 < z < 2 ^ 63.
Proof. intros (zs & -> & B) H. apply abs_range. specialize (H zs eq_refl). lra. Qed.
Lemma nilIR : isIR [] 0.
Proof. intros xs E. destruct xs; [|discriminate]. rewrite Rabs_R0. apply Rabs_sum_nonneg. Qed.
Ltac addsR L := apply (L RealD SR smallR isIR eq_refl (fun x _ => SR_one x) (fun a b _ => SR_app a b) SR_perm small_permR small_lR nonanR appIR permIR rangeIR toIR).
Definition WorkSumR V vals k nt sch l := @WorkSum_ok RealD SR smallR isIR eq_refl (fun a b _ => SR_app a b) SR_perm small_permR small_lR nonanR nilIR appIR permIR rangeIR V vals k nt sch l.

Lemma add_zeroR (o : option R) : add_d RealD (zero RealD) o = o.
Proof. destruct o as [r|]; [|reflexivity]. change (Some (0 + r)%R = Some r). f_equal. lra. Qed.
(** one call, no bound needed *)
Lemma single_float {V} (f : V -> option R) l : lenOut (AddFloat RealD f l (sg0 RealD)) = Z.of_nat (length l) /\ resultOut (AddFloat RealD f l (sg0 RealD)) = SR (map f l).
Proof.
  unfold AddFloat. cbv zeta. cbn [lenOut resultOut sg0]. split; [lia|].
  rewrite (aggR _ _ (vec_sum_agg RealD f l)). apply (SR_app [] (map f l)).
Qed.
Lemma single_nan (f : option R -> option R) l : lenOut (NanSum RealD rvalid f l (sg0 RealD)) = Z.of_nat (length (reals l)) /\ resultOut (NanSum RealD rvalid f l (sg0 RealD)) = SR (map f (map Some (reals l))).
Proof.
  unfold NanSum. cbv zeta. cbn [lenOut resultOut sg0]. rewrite filter_reals, map_length. split; [lia|].
  assert (E : forall v acc, fold_left (fun acc x => plus RealD acc (f x)) v acc = fold_left (plus RealD) (map f v) acc).
  { induction v; intros acc; cbn [fold_left map]; auto. }
  rewrite E, foldR. apply (SR_app [] (map f (map Some (reals l)))).
Qed.
Lemma single_slow (f : option R -> option R) xs : lenOut (AddSlow RealD rvalid f (map Some xs) (sg0 RealD)) = Z.of_nat (length xs) /\
  ((forall x, In x xs -> f (Some x) <> None) -> resultOut (AddSlow RealD rvalid f (map Some xs) (sg0 RealD)) = SR (map f (map Some xs))).
Proof.
  unfold AddSlow. cbv zeta. cbn [lenOut resultOut sg0]. rewrite map_length. split; [lia|]. intros H.
  rewrite slow_sum_fold.
  2:{ intros x I. apply in_map_iff in I as (y & <- & I). reflexivity. }
  rewrite foldR. apply add_zeroR.
Qed.

(** the state after the whole array *)
Lemma work_float (f : option R -> option R) nt sch l : splits l sch -> (threaded nt l = true -> smallR (map f l)) ->
  lenOut (WorkSum RealD (AddFloat RealD f) nt sch l (sg0 RealD)) = Z.of_nat (length l) /\
  resultOut (WorkSum RealD (AddFloat RealD f) nt sch l (sg0 RealD)) = SR (map f l).
Proof.
  intros P B. destruct (threaded nt l) eqn:T.
  - destruct (WorkSumR _ (map f) (AddFloat RealD f) nt sch l) as (H1 & H2 & _); auto.
    + intros; apply map_app.
    + intros; now apply Permutation_map.
    + intros b _. addsR @adds_float.
    + rewrite map_length in H1. auto.
  - unfold WorkSum. rewrite T. apply single_float.
Qed.
Lemma work_nan (f : option R -> option R) nt sch l : splits l sch -> (threaded nt l = true -> smallR (map f (map Some (reals l)))) ->
  lenOut (WorkSum RealD (NanSum RealD rvalid f) nt sch l (sg0 RealD)) = Z.of_nat (length (reals l)) /\
  resultOut (WorkSum RealD (NanSum RealD rvalid f) nt sch l (sg0 RealD)) = SR (map f (map Some (reals l))).
Proof.
  intros P B. destruct (threaded nt l) eqn:T.
  - destruct (WorkSumR _ (fun b => map f (filter rvalid b)) (NanSum RealD rvalid f) nt sch l) as (H1 & H2 & _); auto.
    + intros. now rewrite filter_app, map_app.
    + intros; now apply Permutation_map, filter_perm'.
    + intros b _. addsR @adds_nan.
    + rewrite filter_reals. auto.
    + rewrite filter_reals in *. rewrite !map_length in H1. auto.
  - unfold WorkSum. rewrite T. apply single_nan.
Qed.
Lemma work_slow (f : option R -> option R) nt sch xs : splits (map Some xs) sch -> (forall x, In x xs -> f (Some x) <> None) ->
  (threaded nt (map Some xs) = true -> smallR (map f (map Some xs))) ->
  lenOut (WorkSum RealD (AddSlow RealD rvalid f) nt sch (map Some xs) (sg0 RealD)) = Z.of_nat (length xs) /\
  resultOut (WorkSum RealD (AddSlow RealD rvalid f) nt sch (map Some xs) (sg0 RealD)) = SR (map f (map Some xs)).
Proof.
  intros P F B. destruct (threaded nt (map Some xs)) eqn:T.
  - destruct (WorkSumR _ (map f) (AddSlow RealD rvalid f) nt sch (map Some xs)) as (H1 & H2 & _); auto.
    + intros; apply map_app.
    + intros; now apply Permutation_map.
    + intros b I. addsR @adds_slow. intros x X. apply I in X. apply in_map_iff in X as (y & <- & _). reflexivity.
    + rewrite !map_length in H1. auto.
  - unfold WorkSum. rewrite T. destruct (single_slow f xs) as [H1 H2]. split; [assumption|auto].
Qed.
Lemma work_var32 (f : option R -> option R) nt sch xs : splits (map Some xs) sch -> (forall x, In x xs -> f (Some x) <> None) ->
  lenOut (WorkSum RealD (VarF32 RealD f) nt sch (map Some xs) (sg0 RealD)) = Z.of_nat (length xs) /\
  resultOut (WorkSum RealD (VarF32 RealD f) nt sch (map Some xs) (sg0 RealD)) = SR (map f (map Some xs)).
Proof.
  intros P F.
  set (small := fun d : list (option R) => ~ In None d). set (isI := fun (d : list (option R)) z => z = 0).
  assert (SP : forall a b, Permutation a b -> small a -> small b) by (intros a b Q H I; apply H; eapply Permutation_in; [symmetry|]; eassumption).
  assert (SL : forall a b, small (a ++ b) -> small a) by (intros a b H I; apply H, in_or_app; now left).
  assert (NN : forall d, small d -> isnan RealD (SR d) = false).
  { intros d H. destruct (some_or_nan d) as [(ys & ->)|C]; [now rewrite SR_some|contradiction]. }
  assert (IA : forall a b x y, isI a x -> isI b y -> small (a ++ b) -> isI (a ++ b) (x + y)) by (unfold isI; intros; lia).
  assert (IP : forall a b z, Permutation a b -> isI a z -> isI b z) by auto.
  assert (IR : forall d z, small d -> isI d z -> - 2 ^ 63 < z < 2 ^ 63) by (unfold isI; intros; lia).
  destruct (@WorkSum_ok RealD SR small isI eq_refl (fun a b _ => SR_app a b) SR_perm SP SL NN eq_refl IA IP IR _ (map f) (VarF32 RealD f) nt sch (map Some xs)) as (H1 & H2 & _); auto.
  - intros; apply map_app.
  - intros; now apply Permutation_map.
  - intros b I. apply (@adds_var32 RealD SR small isI eq_refl (fun x _ => SR_one x) (fun a b _ => SR_app a b) SR_perm SP SL NN IA IP IR). auto.
  - intros C. rewrite map_map in C. apply in_map_iff in C as (y & E & I). now apply (F y).
  - rewrite !map_length in H1. auto.
Qed.

(** NaN stays *)
Lemma gatherR_none (s c : sg RealD) : resultOut s = None \/ resultOut c = None -> resultOut (gather_sum RealD s c) = None.
Proof.
  intros H. unfold gather_sum. cbv zeta.
  assert (E : add_d RealD (resultOut s) (resultOut c) = None) by (destruct H as [-> | ->]; [reflexivity|unfold add_d; now destruct (resultOut s)]).
  rewrite E. reflexivity.
Qed.
Lemma plus_none_l (x : option R) : plus RealD None x = None. Proof. reflexivity. Qed.
Lemma plus_none_r (x : option R) : plus RealD x None = None. Proof. now destruct x. Qed.
Lemma work_bad (k : list (option R) -> sg RealD -> sg RealD) (poison : option R -> Prop) nt sch l s :
  (forall b (t : sg RealD), resultOut t = None -> resultOut (k b t) = None) -> (forall b t, (exists x, In x b /\ poison x) -> resultOut (k b t) = None) ->
  splits l sch -> (exists x, In x l /\ poison x) -> resultOut (WorkSum RealD k nt sch l s) = None.
Proof.
  intros K1 K2 P E. apply (WorkSum_bad RealD (fun t => resultOut t = None) k poison K1 K2); auto; intros; apply gatherR_none; auto.
Qed.
Lemma float_bad (f : option R -> option R) nt sch l : splits l sch -> (exists x, In x l /\ f x = None) -> resultOut (WorkSum RealD (AddFloat RealD f) nt sch l (sg0 RealD)) = None.
Proof.
  apply (work_bad (AddFloat RealD f) (fun x => f x = None)).
  - intros b t H. unfold AddFloat. cbv zeta. cbn [resultOut]. rewrite H. reflexivity.
  - intros b t (x & I & F). unfold AddFloat. cbv zeta. cbn [resultOut]. rewrite (aggR _ _ (vec_sum_agg RealD f b)).
    rewrite SR_none; [apply plus_none_r|]. apply in_map_iff. now exists x.
Qed.
Lemma var32_bad (f : option R -> option R) nt sch l : splits l sch -> (exists x, In x l /\ f x = None) -> resultOut (WorkSum RealD (VarF32 RealD f) nt sch l (sg0 RealD)) = None.
Proof.
  apply (work_bad (VarF32 RealD f) (fun x => f x = None)).
  - intros b t H. destruct (var_sum_agg RealD f b t) as (r & _ & ->). cbn [resultOut]. rewrite H. reflexivity.
  - intros b t (x & I & F). destruct (var_sum_agg RealD f b t) as (r & G & ->). cbn [resultOut]. rewrite (aggR _ _ G).
    rewrite SR_none; [apply plus_none_r|]. apply in_map_iff. now exists x.
Qed.
Lemma slow_bad (f : option R -> option R) nt sch l : splits l sch -> (exists x, In x l /\ f x = None) -> resultOut (WorkSum RealD (AddSlow RealD rvalid f) nt sch l (sg0 RealD)) = None.
Proof.
  assert (SN : forall b, slow_sum RealD rvalid f b None = None).
  { induction b as [|y b IH]; [reflexivity|]. cbn [slow_sum]. destruct (rvalid y); [rewrite plus_none_l; exact IH|reflexivity]. }
  assert (S1 : forall b acc, (exists x, In x b /\ f x = None) -> slow_sum RealD rvalid f b acc = None).
  { induction b as [|y b IH]; intros acc (x & I & F); [destruct I|]. cbn [slow_sum]. destruct (rvalid y); [|reflexivity].
    destruct I as [->|I]; [rewrite F, plus_none_r; apply SN|apply IH; eauto]. }
  apply (work_bad (AddSlow RealD rvalid f) (fun x => f x = None)).
  - intros b t H. unfold AddSlow. cbv zeta. cbn [resultOut]. rewrite H. reflexivity.
  - intros b t H. unfold AddSlow. cbv zeta. cbn [resultOut]. rewrite (S1 b _ H). unfold add_d. now destruct (resultOut t).
Qed.
