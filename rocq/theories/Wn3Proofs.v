(** Proofs about Rolling: from its arguments to its results. *)
From Coq Require Import Reals.
From Verif Require Import Base Mem MemLemmas AccumSpec AllModel AllSpec AllProofs All2Proofs All4Proofs All5Proofs EaModel EaSpec EaProofs Ea2Proofs WnModel WnSpec WnProofs.
From Verif Require Par GrpxModel GrpxSpec RollModel RollSpec HeapModel HeapSpec Heap7Proofs Wn2Proofs.
Local Open Scope Z_scope.

Lemma all_some_map {X Y} (f : X -> option Y) (g : X -> Y) l : (forall x, In x l -> f x = Some (g x)) -> Par.all_some (map f l) = Some (map g l).
Proof. induction l as [|x l IH]; intros H; [reflexivity|]. cbn [map Par.all_some]. rewrite (H x (or_introl eq_refl)), IH; [reflexivity|]. intros; apply H; now right. Qed.
Lemma read_ensured_right {X} (zero : X) n (a : arg X) : 0 <= n -> arg_ok n a -> read_ensured a = Some (arg_vals zero a).
Proof.
  intros HN OK. unfold read_ensured. destruct (contiguous a) eqn:C.
  - apply (read_arg_right zero n); auto. unfold contiguous in C. apply orb_prop in C as [C | C]; [left; now apply Z.eqb_eq|right; now apply Z.leb_le].
  - destruct OK as (HL & _ & HI). unfold copy_arg, arg_vals. apply all_some_map. intros i Hi. apply in_seq in Hi. specialize (HI (Z.of_nat i) ltac:(lia)).
    unfold zrd. rewrite (proj2 (Z.leb_le 0 (a_start a + Z.of_nat i * a_step a))) by lia. destruct (nth_error_lt (a_mem a) (Z.to_nat (a_start a + Z.of_nat i * a_step a)) ltac:(lia)) as (x & Ex). rewrite Ex. f_equal. symmetry. now apply nth_error_nth.
Qed.
Lemma last_rows_window {F} win k (vs : list (num F)) : last_rows win k vs = GrpxSpec.window win k vs.
Proof. unfold last_rows, GrpxSpec.window. now rewrite Nat.add_1_r. Qed.
Lemma window_in {X} win k (vs : list X) v : In v (GrpxSpec.window win k vs) -> In v vs.
Proof. unfold GrpxSpec.window. intros H. rewrite <- (firstn_skipn (k + 1) vs). apply in_or_app. left. rewrite <- (firstn_skipn (k + 1 - Z.to_nat win) (firstn (k + 1) vs)). apply in_or_app. now right. Qed.
Lemma rolled_rows {X Y} (P Q : nat -> Y -> Prop) (l : list X) n res : Z.of_nat (length l) = n -> (forall k u, P k u -> Q k u) -> RollSpec.rolled P l res -> every_row Q n res.
Proof. intros HL H (L & R). split; [lia|]. intros i r E. apply H. now apply R. Qed.

Section Roll.
  Context {F : Type} (A : arith F) (AO : arith_ok A).

  Definition sum_wide (d : Z) : ctype := if floating d then format d else CI 8.
  Definition sum_num (d : Z) : Z := if floating d then d else 7.
  Definition mean_num (d : Z) : Z := if (d =? 11) || (d =? 13) then d else 12.
  Lemma rolling_table d : 0 <= d <= 13 -> exists T, stored d = Some T /\ rolling_types d = Some (T, sum_wide d) /\ rolling_types2 d = Some (T, format d) /\
    rolling_out d = sum_num d /\ rolling_out2 d = mean_num d /\ holds_type d T = true /\ holds_type (sum_num d) (sum_wide d) = true /\ holds_type (mean_num d) (format d) = true.
  Proof. intros H. assert (C : In d [0; 1; 2; 3; 4; 5; 6; 7; 8; 9; 10; 11; 12; 13]) by (cbn; lia). cbn [In] in C. repeat (destruct C as [<- | C]; [eexists; repeat split; reflexivity|]). contradiction. Qed.

  (** exact arithmetic: floating point numbers that are no NaN, and int64 *)
  Definition real_num (v : num F) : Prop := exists x, v = R x /\ isnan A x = false.
  Definition whole_num (v : num F) : Prop := exists z, v = I z /\ wrapT (CI 8) z = z.
  Lemma exact_real b : exact_on A (CF b) -> real_num (zero_of A (CF b)) /\
    (forall v w, real_num v -> real_num w -> real_num (add A (CF b) v w) /\ add A (CF b) v w = add A (CF b) w v /\ minus A (CF b) (add A (CF b) v w) w = v) /\
    (forall u v w, real_num u -> real_num v -> real_num w -> add A (CF b) (add A (CF b) u v) w = add A (CF b) u (add A (CF b) v w)).
  Proof.
    intros (E0 & EA & ET). split; [eexists; split; [reflexivity|exact E0]|]. split.
    - intros v w (x & -> & Hx) (y & -> & Hy). destruct (EA x y Hx Hy) as (V1 & C1 & S1). unfold minus, AllModel.sub. cbn [add fval]. split; [eexists; split; [reflexivity|exact V1]|]. split; [now rewrite C1|now rewrite S1].
    - intros u v w (x & -> & Hx) (y & -> & Hy) (z & -> & Hz). cbn [add fval]. now rewrite ET.
  Qed.
  Lemma exact_whole_num : whole_num (zero_of A (CI 8)) /\
    (forall v w, whole_num v -> whole_num w -> whole_num (add A (CI 8) v w) /\ add A (CI 8) v w = add A (CI 8) w v /\ minus A (CI 8) (add A (CI 8) v w) w = v) /\
    (forall u v w, whole_num u -> whole_num v -> whole_num w -> add A (CI 8) (add A (CI 8) u v) w = add A (CI 8) u (add A (CI 8) v w)).
  Proof.
    assert (HS : sized (CI 8)) by (cbn; lia). split; [exists 0; split; [reflexivity|now apply wrapT_zero]|]. split.
    - intros v w (x & -> & Hx) (y & -> & Hy). cbn [add minus zval]. split; [eexists; split; [reflexivity|now apply wrapT_idem]|]. split; [now rewrite Z.add_comm|].
      f_equal. unfold Z.sub. rewrite wrapT_add by exact HS. now replace (x + y + - y) with x by lia.
    - intros u v w (x & -> & Hx) (y & -> & Hy) (z & -> & Hz). cbn [add zval]. f_equal. rewrite wrapT_add, wrapT_add_r by exact HS. f_equal. lia.
  Qed.
  Lemma conv_real b v : (forall x, v = R x -> isnan A x = false) -> real_num (conv A (CF b) v).
  Proof using AO.
    intros H. destruct AO as (_ & _ & C1 & C2 & _). destruct v as [z|x]; cbn [conv]; (eexists; split; [reflexivity|]); [apply C2|]. rewrite C1. now apply H.
  Qed.
  Lemma conv_whole v : whole_num (conv A (CI 8) v).
  Proof. eexists. split; [reflexivity|]. apply wrapT_idem. lia. Qed.

  (** the totals *)
  Lemma total_sum d T vs : stored d = Some T -> (forall v, In v vs -> of_type d v) -> sum_of A (sum_num d) vs (total (zero_of A (sum_wide d)) (conv A (sum_wide d)) (add A (sum_wide d)) vs).
  Proof.
    intros HT HV. unfold sum_num, sum_wide. destruct (int_type d) as [t|] eqn:E.
    - rewrite (int_not_float d _ E). destruct (all_ints d t _ E HV) as (zs & ->). exists zs. eexists. split; [reflexivity|]. split; [|exact (wrap_sum64 7 zs)]. unfold total.
      change (zero_of A (CI 8)) with (@I F 0). rewrite total_int by (discriminate || reflexivity || (cbn; lia)). reflexivity.
    - destruct (float_stored d T HT E) as (Fl & _). rewrite Fl. unfold sum_of. rewrite Fl. destruct (all_floats d _ E HV) as (xs & ->). exists xs. split; [reflexivity|]. unfold total.
      destruct (format_float d) as (b & ->). cbn [zero_of]. generalize (fzero A (CF b)). induction xs as [|x xs IH]; intros s; [reflexivity|]. cbn [map fold_left].
      apply IH. intros v Hv. apply HV. now right.
  Qed.
  Lemma total_mean d vs : divn A (format d) (total (zero_of A (format d)) (conv A (format d)) (add A (format d)) vs) (Z.of_nat (length vs)) =
    R (fdivn A (format d) (fold_left (fun s v => fadd A (format d) s (float_of A d v)) vs (fzero A (format d))) (Z.of_nat (length vs))).
  Proof.
    unfold float_of. destruct (format_float d) as (b & ->). unfold divn. do 2 f_equal. unfold total. cbn [zero_of]. generalize (fzero A (CF b)). generalize (length vs). intros _.
    assert (G : forall s, fold_left (fun s x => add A (CF b) s (conv A (CF b) x)) vs (R s) = R (fold_left (fun s v => fadd A (CF b) s match v with I z => of_int A (CF b) z | R x => cast A (CF b) x end) vs s)).
    { induction vs as [|v vs IH]; intros s; [reflexivity|]. cbn [fold_left]. now rewrite <- IH. }
    intros s. now rewrite G.
  Qed.
  Lemma filter_all {X} (p : X -> bool) l : Forall (fun v => p v = true) l -> filter p l = l.
  Proof. induction 1 as [|x l Hx _ IH]; [reflexivity|]. cbn. now rewrite Hx, IH. Qed.

  Context (variance : rfun -> ctype -> ctype -> Z -> list (num F) -> outcome (list (num F))) (over : num F).
  Lemma rolling_done (a : arg (num F)) func win T U f out r : - 2 ^ 63 <= func < 2 ^ 63 -> - 2 ^ 63 <= win < 2 ^ 63 -> 0 <= a_len a -> arg_ok (a_len a) a ->
    (if 100 <=? func then (rolling_fun2 func, rolling_types2 (a_dtype a), rolling_out2 (a_dtype a)) else (rolling_fun func, rolling_types (a_dtype a), rolling_out (a_dtype a))) = (Some f, Some (T, U), out) ->
    holds_type (a_dtype a) T = true -> holds_type out U = true -> rolling_call A variance over f T U win (arg_vals (I 0) a) = Done r ->
    Rolling A variance over a func win = Done (Some (out, r)).
  Proof.
    intros HF HW HL OK E H1 H2 HC. unfold Rolling.
    assert (int64_ok func = true) as -> by (unfold int64_ok; rewrite (proj2 (Z.leb_le _ _)), (proj2 (Z.ltb_lt _ _)) by lia; reflexivity).
    assert (int64_ok win = true) as -> by (unfold int64_ok; rewrite (proj2 (Z.leb_le _ _)), (proj2 (Z.ltb_lt _ _)) by lia; reflexivity). cbn [andb negb]. cbv zeta. rewrite E, H1, H2. cbn [andb].
    rewrite (read_ensured_right (I 0) (a_len a)) by auto. cbn [undef obind]. now rewrite HC.
  Qed.

  Theorem rolling_right (a : arg (num F)) func win :
    numbers a -> In func rolling -> 0 <= win < 2 ^ 63 -> exact_on A (format (a_dtype a)) -> plain_values A func (a_dtype a) (arg_vals (I 0) a) ->
    exists out, Rolling A variance over a func win = Done (Some (rolling_dtype func (a_dtype a), out)) /\
      every_row (rolling_row A func (a_dtype a) win (arg_vals (I 0) a)) (a_len a) out.
  Proof using AO.
    intros (HD & HN & OK & HE) HF HW EX (PV & PV3). set (vs := arg_vals (I 0) a) in *. set (d := a_dtype a) in *.
    assert (LV : Z.of_nat (length vs) = a_len a). { unfold vs. rewrite (arg_vals_length (I 0) _ a OK). lia. }
    destruct (rolling_table d HD) as (T & HT & T1 & T2 & O1 & O2 & H0 & H1 & H2).
    assert (HV : forall v, In v vs -> of_type d v) by (intros v Hv; now apply (elements_typed d T vs)).
    assert (HWi : forall k v, In v (GrpxSpec.window win k vs) -> of_type d v) by (intros k v Hv; apply HV; now apply window_in in Hv).
    (* the numbers whose arithmetic is exact *)
    set (Vs := if floating d then real_num else whole_num).
    assert (S : Vs (zero_of A (sum_wide d)) /\ (forall v w, Vs v -> Vs w -> Vs (add A (sum_wide d) v w) /\ add A (sum_wide d) v w = add A (sum_wide d) w v /\ minus A (sum_wide d) (add A (sum_wide d) v w) w = v) /\
      (forall u v w, Vs u -> Vs v -> Vs w -> add A (sum_wide d) (add A (sum_wide d) u v) w = add A (sum_wide d) u (add A (sum_wide d) v w))).
    { unfold Vs, sum_wide. destruct (floating d); [|exact exact_whole_num]. destruct (format_float d) as (b & Eb). rewrite Eb in *. now apply exact_real. }
    assert (M : real_num (zero_of A (format d)) /\ (forall v w, real_num v -> real_num w -> real_num (add A (format d) v w) /\ add A (format d) v w = add A (format d) w v /\ minus A (format d) (add A (format d) v w) w = v) /\
      (forall u v w, real_num u -> real_num v -> real_num w -> add A (format d) (add A (format d) u v) w = add A (format d) u (add A (format d) v w))).
    { destruct (format_float d) as (b & Eb). rewrite Eb in *. now apply exact_real. }
    assert (VR : forall v, of_type d v -> valid_of A d v = true \/ floating d = false -> real_num (conv A (format d) v)).
    { intros v Hv H. destruct (format_float d) as (b & ->). apply conv_real. intros x ->. unfold of_type in Hv. destruct (int_type d) as [((lo, hi), mis)|] eqn:E; [contradiction|].
      destruct (float_stored d T HT E) as (Fl & _). destruct H as [H | H]; [|congruence]. unfold valid_of in H. rewrite E in H. now apply negb_true_iff in H. }
    assert (VS : forall v, of_type d v -> valid_of A d v = true \/ floating d = false -> Vs (conv A (sum_wide d) v)).
    { intros v Hv H. unfold Vs, sum_wide. destruct (floating d) eqn:Fl; [now apply VR|apply conv_whole]. }
    assert (OKS : forall k, filter (ok A T) (GrpxSpec.window win k vs) = filter (valid_of A d) (GrpxSpec.window win k vs)).
    { intros k. apply filter_ext_in. intros v Hv. apply (valid_agrees A AO d T); auto. now apply (HWi k). }
    destruct S as (S0 & SA & ST). destruct M as (M0 & MA & MT).
    cbn [In rolling] in HF. destruct HF as [<- | [<- | [<- | [<- | []]]]].
    - destruct (Wn2Proofs.sum_on (conv A (sum_wide d)) (zero_of A (sum_wide d)) (add A (sum_wide d)) (minus A (sum_wide d)) (divn A (sum_wide d)) Vs S0 SA ST win vs (proj1 HW)) as (r & E & RR).
      { apply Forall_forall. intros v Hv. apply VS; auto. destruct (floating d) eqn:Fl; [left|now right]. specialize (PV (or_introl eq_refl) eq_refl). rewrite Forall_forall in PV. now apply PV. }
      exists r. split; [|revert RR; apply rolled_rows; [exact LV|]; intros k u ->; unfold rolling_row; cbv zeta; rewrite last_rows_window; apply (total_sum d T); auto; apply HWi].
      apply (rolling_done a 0 win T (sum_wide d) RSum); auto; try lia; [fold d; change (100 <=? 0) with false; cbn iota; now rewrite T1, O1|]. cbn [rolling_call]. fold vs. now rewrite E.
    - destruct (Wn2Proofs.nansum_on (conv A (sum_wide d)) (zero_of A (sum_wide d)) (add A (sum_wide d)) (minus A (sum_wide d)) (divn A (sum_wide d)) (ok A T) Vs S0 SA ST win vs (proj1 HW)) as (r & E & RR).
      { apply Forall_forall. intros v Hv Ho. apply VS; auto. left. now rewrite <- (valid_agrees A AO d T) by auto. }
      exists r. split; [|revert RR; apply rolled_rows; [exact LV|]; intros k u ->; unfold rolling_row; cbv zeta; rewrite last_rows_window, OKS; apply (total_sum d T); auto; intros v Hv; apply filter_In in Hv as (Hv & _); now apply (HWi k)].
      apply (rolling_done a 1 win T (sum_wide d) RNanSum); auto; try lia; [fold d; change (100 <=? 1) with false; cbn iota; now rewrite T1, O1|]. cbn [rolling_call]. fold vs. now rewrite E.
    - destruct (Wn2Proofs.mean_on (conv A (format d)) (zero_of A (format d)) (add A (format d)) (minus A (format d)) (divn A (format d)) real_num M0 MA MT win vs (proj1 HW)) as (r & E & RR).
      { apply Forall_forall. intros v Hv. apply VR; auto. destruct (floating d) eqn:Fl; [left|now right]. specialize (PV (or_intror eq_refl) eq_refl). rewrite Forall_forall in PV. now apply PV. }
      exists r. split; [|revert RR; apply rolled_rows; [exact LV|]; intros k u ->; unfold rolling_row, mean_of; cbv zeta; rewrite last_rows_window; apply total_mean].
      apply (rolling_done a 102 win T (format d) RMean); auto; try lia; [fold d; change (100 <=? 102) with true; cbn iota; now rewrite T2, O2|]. cbn [rolling_call]. fold vs. now rewrite E.
    - destruct (Wn2Proofs.nanmean_on (conv A (format d)) (zero_of A (format d)) (add A (format d)) (minus A (format d)) (divn A (format d)) (is_itself A T) real_num M0 MA MT win vs (proj1 HW)) as (r & E & RR).
      { apply Forall_forall. intros v Hv Ho. apply VR; auto. destruct (int_type d) eqn:E; [right; eapply int_not_float; eauto|left]. destruct (float_stored d T HT E) as (Fl & ET). unfold valid_of. specialize (HV v Hv). unfold of_type in HV. rewrite E in HV |- *.
        destruct v as [z|x]; [contradiction|]. rewrite ET in Ho. destruct (format_float d) as (b & Eb). rewrite Eb in Ho. exact Ho. }
      exists r. split; [|revert RR; apply rolled_rows; [exact LV|]; intros k u ->; unfold rolling_row, mean_of; cbv zeta; rewrite last_rows_window].
      + apply (rolling_done a 103 win T (format d) RNanMean); auto; try lia; [fold d; change (100 <=? 103) with true; cbn iota; now rewrite T2, O2|]. cbn [rolling_call]. fold vs. now rewrite E.
      + assert (filter (is_itself A T) (GrpxSpec.window win k vs) = filter (valid_of A d) (GrpxSpec.window win k vs)) as ->; [|apply total_mean].
        destruct (int_type d) as [t|] eqn:Ei.
        * specialize (PV3 eq_refl (int_not_float d _ Ei)). rewrite (filter_all (valid_of A d)).
          -- apply filter_all, Forall_forall. intros v _. destruct t as ((lo, hi), mis). destruct (int_facts d lo hi mis T Ei HT) as (N & _). destruct T as [b|b|b]; [reflexivity..|]. exfalso. now apply (N b).
          -- apply Forall_forall. intros v Hv. rewrite Forall_forall in PV3. apply PV3. now apply window_in in Hv.
        * destruct (float_stored d T HT Ei) as (Fl & ET). apply filter_ext_in. intros v Hv. pose proof (HWi k v Hv) as HO. unfold of_type in HO. unfold valid_of. rewrite Ei in HO |- *. destruct v as [z|x]; [contradiction|].
          rewrite ET. destruct (format_float d) as (b & ->). reflexivity.
  Qed.

  (** quantiles *)
  Lemma split_right d T x y vs : stored d = Some T -> (forall v, In v vs -> of_type d v) -> no_overflow d vs -> In x vs -> In y vs -> split A over T (format d) x y = midway A d x y.
  Proof.
    intros HT HV HO Hx Hy. pose proof (HV x Hx) as Tx. pose proof (HV y Hy) as Ty. unfold of_type in Tx, Ty. destruct (int_type d) as [((lo, hi), mis)|] eqn:E.
    - destruct x as [x|], y as [y|]; try contradiction. unfold midway. assert (H0 : 5 <= d <= 10 -> lo <= x + y <= hi) by (intros Hd; now apply (HO Hd x y lo hi mis)). clear HO HV Hx Hy Tx Ty.
      unfold split, D64. assert (C : In d [0; 1; 2; 3; 4; 5; 6; 7; 8; 9; 10]).
      { unfold int_type in E. destruct d as [|p|p]; [cbn; auto| |discriminate E]. do 4 (destruct p as [p|p|]; try discriminate E; try (cbn; tauto)). }
      cbn [In] in C. repeat (destruct C as [<- | C]; [injection HT as <-; injection E as <- <- <-; cbn [zval]; unfold GrpxModel.QUANTILE_SPLIT2_signed, GrpxModel.QUANTILE_SPLIT2_unsigned|]); [..|contradiction].
      all: try reflexivity.
      all: specialize (H0 ltac:(lia)).
      all: try (change (8 * 4 <=? 16) with false; change (8 * 4) with 32; change (32 - 1) with 31); try (change (8 * 8 <=? 16) with false; change (8 * 8) with 64; change (64 - 1) with 63); cbn [orb].
      all: try (rewrite (proj2 (Z.leb_le _ _)), (proj2 (Z.ltb_lt _ _)) by lia; reflexivity).
      all: rewrite Z.mod_small by lia; reflexivity.
    - destruct (float_stored d T HT E) as (_ & ->). destruct x as [|x], y as [|y]; try contradiction. unfold midway, split. destruct (format_float d) as (b & ->). reflexivity.
  Qed.
  Lemma sorted_swap {X} (lt lt' : X -> X -> bool) l s : (forall a b, In a l -> In b l -> lt a b = lt' a b) -> GrpxSpec.sorted_of lt l s -> GrpxSpec.sorted_of lt' l s.
  Proof.
    intros H (P & S). split; [exact P|]. assert (HI : forall a, In a s -> In a l) by (intros a Ha; eapply Permutation_in; [apply Permutation_sym; exact P|exact Ha]). clear P.
    induction S as [|a s Hs IH Hf]; [constructor|]. constructor; [apply IH; intros; apply HI; now right|].
    rewrite Forall_forall in *. intros b Hb. rewrite <- H; auto; apply HI; [now right|now left].
  Qed.
  Theorem quantile_right (a : arg (num F)) k win :
    numbers a -> 0 <= k <= 10 ^ 9 -> 0 < win -> k + win * (10 ^ 9 + 1) < 2 ^ 63 -> (forall n, (0 < n <= Z.to_nat win)%nat -> HeapSpec.clear_index k n) -> no_overflow (a_dtype a) (arg_vals (I 0) a) ->
    exists out, Rolling A variance over a 104 (k + win * (10 ^ 9 + 1)) = Done (Some (rolling_dtype 104 (a_dtype a), out)) /\
      every_row (quantile_rows A k (a_dtype a) win (arg_vals (I 0) a)) (a_len a) out.
  Proof using AO.
    intros (HD & HN & OK & HE) HK HW HM HC HO. set (vs := arg_vals (I 0) a) in *. set (d := a_dtype a) in *.
    assert (LV : Z.of_nat (length vs) = a_len a). { unfold vs. rewrite (arg_vals_length (I 0) _ a OK). lia. }
    destruct (rolling_table d HD) as (T & HT & T1 & T2 & O1 & O2 & H0 & H1 & H2).
    assert (HV : forall v, In v vs -> of_type d v) by (intros v Hv; now apply (elements_typed d T vs)).
    change (10 ^ 9) with HeapModel.MULT in HK |- *.
    destruct (Heap7Proofs.RollingQuantile_exact (less A T) (ok A T) (inval A (format d)) (conv A (format d)) (split A over T (format d)) (less_ok A AO T) k win vs HK HW HC) as (r & E & RR).
    exists r. split.
    - apply (rolling_done a 104 _ T (format d) RQuantile); auto; try lia; try (unfold HeapModel.MULT; lia); [fold d; change (100 <=? 104) with true; cbn iota; now rewrite T2, O2|]. cbn [rolling_call]. fold vs. now rewrite E.
    - revert RR. apply rolled_rows; [exact LV|]. intros i u. unfold HeapSpec.quantile_row, quantile_rows. rewrite last_rows_window. set (w := GrpxSpec.window win i vs).
      assert (HWi : forall v, In v w -> In v vs) by (intros v Hv; now apply window_in in Hv). unfold HeapSpec.quantile_of. cbv zeta.
      assert (filter (ok A T) w = filter (valid_of A d) w) as ->. { apply filter_ext_in. intros v Hv. apply (valid_agrees A AO d T); auto. }
      assert (inval A (format d) = R (fnanv A (format d))) as -> by (destruct (format_float d) as (b & ->); reflexivity).
      destruct (length (filter (valid_of A d) w) =? 0)%nat; [auto|]. intros (s & Hs & H). exists s.
      assert (HF : forall v, In v (filter (valid_of A d) w) -> In v vs) by (intros v Hv; apply filter_In in Hv as (Hv & _); auto).
      assert (HI : forall v, In v s -> In v vs). { intros v Hv. apply HF. eapply Permutation_in; [apply Permutation_sym; exact (proj1 Hs)|exact Hv]. }
      split. { revert Hs. apply sorted_swap. intros v v' Hv Hv'. apply (below_agrees A d T); auto. }
      destruct (HeapSpec.exact_whole k (length (filter (valid_of A d) w))).
      + destruct H as (v & Ev & ->). exists v. split; [exact Ev|]. unfold float_of. destruct (format_float d) as (b & ->). now destruct v.
      + destruct H as (v & v' & Ev & Ev' & ->). exists v, v'. split; [exact Ev|]. split; [exact Ev'|]. apply (split_right d T v v' vs); auto; apply HI; eapply nth_error_In; eauto.
  Qed.

  (** what is refused, and what gives None *)
  Lemma rolling_refused (a : arg (num F)) func win : ~ (- 2 ^ 63 <= func < 2 ^ 63) \/ ~ (- 2 ^ 63 <= win < 2 ^ 63) -> Rolling A variance over a func win = Error.
  Proof.
    intros H. unfold Rolling. destruct (int64_ok func && int64_ok win) eqn:E; [|reflexivity]. apply andb_prop in E as (E1 & E2). unfold int64_ok in E1, E2. apply andb_prop in E1 as (E1 & E1'). apply andb_prop in E2 as (E2 & E2').
    apply Z.leb_le in E1, E2. apply Z.ltb_lt in E1', E2'. lia.
  Qed.
  Lemma quantile_refused (a : arg (num F)) win : numbers a -> - 2 ^ 63 <= win < 10 ^ 9 + 1 -> Rolling A variance over a 104 win = Error.
  Proof.
    intros (HD & HN & OK & HE) HW. unfold Rolling. change (int64_ok 104) with true.
    assert (int64_ok win = true) as -> by (unfold int64_ok; rewrite (proj2 (Z.leb_le _ _)), (proj2 (Z.ltb_lt _ _)) by lia; reflexivity). cbn [andb negb]. cbv zeta. change (100 <=? 104) with true. cbn iota.
    destruct (rolling_table _ HD) as (T & HT & T1 & -> & O1 & -> & -> & H1 & ->). cbn [rolling_fun2 andb]. rewrite (read_ensured_right (I 0) (a_len a)) by auto. cbn [undef obind rolling_call].
    unfold HeapModel.RollingQuantile. cbv zeta. rewrite (proj2 (Z.leb_le _ _)); [reflexivity|]. change (HeapModel.MULT + 1) with (10 ^ 9 + 1).
    destruct (Z.le_gt_cases 0 win); [rewrite Z.quot_small by lia; lia|]. pose proof (Z.quot_pos (- win) (10 ^ 9 + 1) ltac:(lia) ltac:(lia)). rewrite Z.quot_opp_l in * by lia. lia.
  Qed.
  Lemma types_none d : ~ 0 <= d <= 13 -> rolling_types d = None /\ rolling_types2 d = None.
  Proof. destruct d as [|p|p]; [lia| |split; reflexivity]. intros H. do 4 (try (destruct p as [p|p|]); try (split; reflexivity); try (exfalso; lia)). Qed.
  Lemma rolling_none (a : arg (num F)) func win : - 2 ^ 63 <= func < 2 ^ 63 -> - 2 ^ 63 <= win < 2 ^ 63 ->
    ~ In func [0; 1; 102; 103; 104; 106; 107; 108; 109] \/ ~ 0 <= a_dtype a <= 13 -> Rolling A variance over a func win = Done None.
  Proof.
    intros HF HW H. unfold Rolling.
    assert (int64_ok func = true) as -> by (unfold int64_ok; rewrite (proj2 (Z.leb_le _ _)), (proj2 (Z.ltb_lt _ _)) by lia; reflexivity).
    assert (int64_ok win = true) as -> by (unfold int64_ok; rewrite (proj2 (Z.leb_le _ _)), (proj2 (Z.ltb_lt _ _)) by lia; reflexivity). cbn [andb negb]. cbv zeta.
    destruct H as [H | H].
    - assert (rolling_fun func = None) as ->. { destruct func as [|[p|p|]|p]; try reflexivity; exfalso; apply H; cbn; auto. }
      assert (rolling_fun2 func = None) as ->.
      { destruct (rolling_fun2 func) eqn:E; [|reflexivity]. exfalso. apply H. unfold rolling_fun2 in E. destruct func as [|p|p]; try discriminate E.
        do 7 (destruct p as [p|p|]; try discriminate E); cbn; tauto. }
      now destruct (100 <=? func).
    - destruct (types_none _ H) as (-> & ->). destruct (100 <=? func); [now destruct (rolling_fun2 func)|now destruct (rolling_fun func)].
  Qed.
End Roll.
