(** Proofs about GroupByAll32: one column scattered over the threads. *)
From Verif Require Import Base Mem MemLemmas Inter AccumModel AccumSpec AccumProofs Accum2Proofs Accum3Proofs Accum4Proofs Accum5Proofs
  VarModel VarSpec AllModel AllSpec AllProofs.
Local Open Scope Z_scope.

Lemma wrapT_add U a b : sized U -> wrapT U (wrapT U a + b) = wrapT U (a + b).
Proof.
  destruct U as [k|k|k]; cbn [wrapT sized]; intros Hk; [| |reflexivity].
  - assert (P : 2 ^ (8 * k) <> 0) by (apply Z.pow_nonzero; lia).
    f_equal.
    replace ((a + 2 ^ (8 * k - 1)) mod 2 ^ (8 * k) - 2 ^ (8 * k - 1) + b + 2 ^ (8 * k - 1)) with ((a + 2 ^ (8 * k - 1)) mod 2 ^ (8 * k) + b) by lia.
    rewrite Zplus_mod_idemp_l. f_equal. lia.
  - apply Zplus_mod_idemp_l.
Qed.
Lemma wrapT_add_r U a b : sized U -> wrapT U (a + wrapT U b) = wrapT U (a + b).
Proof. intros H. rewrite Z.add_comm, wrapT_add by exact H. f_equal. lia. Qed.
Lemma wrapT_zero U : sized U -> wrapT U 0 = 0.
Proof.
  destruct U as [k|k|k]; cbn [wrapT sized]; intros Hk; [|apply Z.mod_0_l, Z.pow_nonzero; lia|reflexivity].
  rewrite Z.mod_small; [lia|]. assert (0 < 2 ^ (8 * k - 1)) by (apply Z.pow_pos_nonneg; lia).
  replace (2 ^ (8 * k)) with (2 ^ (8 * k - 1) * 2); [lia|]. replace (8 * k) with (8 * k - 1 + 1) at 2 by lia. now rewrite Z.pow_add_r by lia.
Qed.

Section Scatter.
  Context {F : Type} (A : arith F).
  Context (AO : arith_ok A).

  Lemma exact_int U : sized U -> (forall b, U <> CF b) -> exact_add (zero_of A U) (add A U).
  Proof.
    clear AO. intros HU HN. assert (E : forall a b, add A U a b = I (wrapT U (zval a + zval b))) by (intros; destruct U; [reflexivity..|exfalso; eapply HN; eauto]).
    assert (E0 : zero_of A U = I 0) by (destruct U; [reflexivity..|exfalso; eapply HN; eauto]).
    split; [|split].
    - intros. rewrite !E. do 2 f_equal. lia.
    - intros. rewrite !E. cbn [zval]. f_equal. rewrite wrapT_add, wrapT_add_r by exact HU. f_equal. lia.
    - rewrite E0, E. cbn [zval]. f_equal. now apply wrapT_zero.
  Qed.
  Lemma exact_float b : arith_exact A -> exact_add (zero_of A (CF b)) (add A (CF b)).
  Proof.
    clear AO. intros (_ & _ & X & _). destruct (X (CF b)) as (c & a & z). unfold add, zero_of. split; [|split]; intros; cbn [fval]; f_equal; auto.
  Qed.
  Lemma divn_bad b s n : arith_exact A -> ok A (CF b) s = false -> divn A (CF b) s n = inval A (CF b).
  Proof.
    clear AO. intros (_ & _ & _ & N) H. unfold ok in H. apply negb_false_iff in H. unfold divn, inval. now rewrite N.
  Qed.
  Lemma narrow_add s x : arith_exact A -> narrow A (CF 4) (add A D64 s (conv A D64 x)) = add A (CF 4) (narrow A (CF 4) s) (narrow A (CF 4) (conv A D64 x)).
  Proof.
    clear AO. intros (S & C & _). unfold narrow, add, D64. cbn [fval]. rewrite !C. f_equal. destruct (S (CF 8) (CF 4)) as (_ & _ & -> & _). reflexivity.
  Qed.
  Lemma narrow_total vals : arith_ok A -> arith_exact A -> narrow A (CF 4) (total (zero_of A D64) (conv A D64) (add A D64) vals)
    = total (zero_of A (CF 4)) (fun x => narrow A (CF 4) (conv A D64 x)) (add A (CF 4)) vals.
  Proof.
    intros O X. unfold total. rewrite <- (narrow_zero A O). generalize (zero_of A D64).
    induction vals as [|v vals IH]; intros s; cbn [fold_left]; [reflexivity|]. now rewrite IH, narrow_add.
  Qed.
  Lemma narrow_div s n : arith_exact A -> narrow A (CF 4) (divn A D64 s n) = divn A (CF 4) (narrow A (CF 4) s) n.
  Proof.
    clear AO. intros (S & C & _). unfold narrow, divn, D64. cbn [fval]. rewrite !C. f_equal. destruct (S (CF 8) (CF 4)) as (_ & _ & _ & ->). reflexivity.
  Qed.

  (** ** A bool column with nanmin: its cores run the function that does not skip *)
  Lemma gfold_nocount U lt : forall cs cs' first s s',
    Forall2 (fun p q => fst p = fst q /\ fst (snd p) = fst (snd q)) cs cs' -> fst (fst s) = fst (fst s') ->
    fst (fst (gfold (g_step (GatherNanMin (ok A U) lt)) first cs s)) = fst (fst (gfold (g_step (GatherNanMin (ok A U) lt)) first cs' s')).
  Proof.
    clear AO. intros cs cs' first s s' H. revert first s s'. induction H as [|[did [d n]] [did' [d' n']] cs cs' [E1 E2] _ IH]; intros first s s' Es; [exact Es|].
    cbn in E1, E2. subst did' d'. cbn [gfold]. apply IH. destruct did; [|exact Es]. cbn [g_step GatherNanMin]. destruct s as [[o i] t], s' as [[o' i'] t']. cbn in Es. subst o'.
    cbn [fst snd]. destruct (ok A U d); [|reflexivity]. destruct (negb (ok A U o) || lt d o); reflexivity.
  Qed.
  Lemma min_step_same T U lt : order_ok (ok A U) lt -> (forall x, ok A T x = true -> ok A U (conv A U x) = true) -> ok A U (inval A U) = false ->
    forall vals x, forallb (ok A T) vals = true ->
    fst (fold_left (a_step (AccumMin (ok A T) (inval A U) (conv A U) lt)) vals (inval A U, 0)) =
    fst (fold_left (a_step (AccumNanMin (ok A T) (ok A U) (inval A U) (conv A U) lt)) vals (inval A U, x)).
  Proof.
    clear AO. intros Ho Hc Hi.
    assert (G : forall vals o n x, forallb (ok A T) vals = true -> (n = 0 /\ ok A U o = false \/ 0 < n /\ ok A U o = true) ->
      fst (fold_left (a_step (AccumMin (ok A T) (inval A U) (conv A U) lt)) vals (o, n)) =
      fst (fold_left (a_step (AccumNanMin (ok A T) (ok A U) (inval A U) (conv A U) lt)) vals (o, x))).
    { induction vals as [|v vals IH]; intros o n x Hv Hn; [reflexivity|]. cbn [forallb] in Hv. apply andb_true_iff in Hv as (V1 & V2).
      cbn [fold_left a_step AccumMin AccumNanMin]. rewrite V1. cbn [negb]. destruct Hn as [(-> & O) | (N & O)]; rewrite O; cbn [negb orb].
      - change (0 <=? 0) with true. change (0 =? 0) with true. cbn iota. apply IH; [exact V2|]. right. split; [lia|auto].
      - rewrite (proj2 (Z.leb_le 0 n)) by lia. rewrite (proj2 (Z.eqb_neq n 0)) by lia. cbn iota.
        destruct (lt (conv A U v) o); apply IH; auto; right; split; auto. }
    intros vals x Hv. apply G; auto.
  Qed.
  Lemma gather_bool T U lt vs cs : order_ok (ok A U) lt -> (forall x, ok A T x = true -> ok A U (conv A U x) = true) -> ok A U (inval A U) = false ->
    Forall2 (core_cell (AccumMin (ok A T) (inval A U) (conv A U) lt)) vs cs -> forallb (ok A T) (concat (map core_vals vs)) = true ->
    nanmin_spec (ok A T) (inval A U) (conv A U) lt (concat (map core_vals vs))
      (g_finish (GatherNanMin (ok A U) lt) (gfold (g_step (GatherNanMin (ok A U) lt)) true cs (inval A U, match cs with (_, c) :: _ => snd c | [] => 0 end, 0))).
  Proof.
    clear AO. intros Ho Hc Hi H HV.
    assert (E : exists cs', Forall2 (core_cell (AccumNanMin (ok A T) (ok A U) (inval A U) (conv A U) lt)) vs cs' /\
      Forall2 (fun p q => fst p = fst q /\ fst (snd p) = fst (snd q)) cs cs').
    { clear - H HV Ho Hc Hi. induction H as [|v p vs cs (x & ->) _ IH]; [exists []; split; constructor|].
      cbn [map concat] in HV. rewrite forallb_app in HV. apply andb_true_iff in HV as (V1 & V2). destruct (IH V2) as (cs' & C1 & C2).
      eexists (match v with None => (false, (x, 0)) | Some vals => (true, _) end :: cs'). split; constructor; [|exact C1| |exact C2].
      - exists x. reflexivity.
      - destruct v as [vals|]; cbn [fst snd]; [|auto]. split; [reflexivity|].
        change (a_clear _ (x, 0)) with (inval A U, 0) at 1. change (a_clear _ (x, 0)) with (inval A U, 0). apply min_step_same; auto. }
    destruct E as (cs' & C1 & C2). pose proof (gather_nanmin (ok A T) (ok A U) (inval A U) (conv A U) lt Ho Hc Hi vs cs' C1) as G.
    cbn [g_finish GatherNanMin] in *.
    erewrite gfold_nocount; [exact G|exact C2|reflexivity].
  Qed.
  Lemma forallb_perm' {X} (f : X -> bool) (l l' : list X) : Permutation l l' -> forallb f l = forallb f l'.
  Proof. clear AO. intros P. induction P; cbn; auto; [now rewrite IHP| |congruence]. destruct (f x), (f y); reflexivity. Qed.

  (** ** The scattered column *)
  Context (low high : Z) (c : nat) (rows : list (Z * num F)) (asg : list (list (list (Z * num F)))) (junks : list (list (num F)))
          (djunks : list (list (num F * num F))) (out0 : list (num F)).
  Context (Hc : (0 < c)%nat) (Ha : assigned c rows asg) (Hne : asg <> []) (Hl : length junks = length asg) (Hl' : length djunks = length asg)
          (H0 : 0 <= low <= high) (H1 : high <= Z.of_nat (length out0))
          (Hj : Forall (fun j => length j = length out0) junks) (Hj' : Forall (fun j => length j = length out0) djunks).

  Definition scatter_kernel (k : kname) (T U : ctype) (func : Z) : option (list (num F)) :=
    match gather_fun_of A func U with
    | Some g => match acc_fun_of A k T U, tmp_fun_of A k T U with
                | Some a, _ => GroupByScatter (inval A U) a g low high asg junks out0
                | _, Some t => GroupByScatterFloat (inval A U) (zero_of A U) (zero_of A D64) t g low high asg djunks out0
                | _, _ => None
                end
    | None => None
    end.

  Lemma stored_sum_int func d U : In func [0; 50] -> stored (out_dtype func d) = Some U -> floating (out_dtype func d) = false -> forall b, U <> CF b.
  Proof.
    clear. intros HF HU HN b ->. unfold stored in HU. revert HU HN. generalize (out_dtype func d). intros e.
    destruct e as [|p|p]; [discriminate| |discriminate]. do 4 (destruct p as [p|p|]; try discriminate; try (cbn; discriminate)).
  Qed.
  Lemma stored_mean func d U : In func [1; 51] -> stored (out_dtype func d) = Some U -> exists b, U = CF b.
  Proof.
    clear. intros HF. replace (out_dtype func d) with (if d =? 11 then 11 else 12).
    - destruct (d =? 11); intros [= <-]; eauto.
    - cbn [In] in HF. each_func HF; reflexivity.
  Qed.
  Lemma stored_floating d U : stored d = Some U -> floating d = true -> exists b, U = CF b.
  Proof.
    clear. unfold stored. destruct d as [|p|p]; [discriminate| |discriminate].
    do 4 (destruct p as [p|p|]; try discriminate; try (intros [= <-]; eauto; discriminate)).
  Qed.

  Lemma exact_sum func d U : In func [0; 50] -> stored (out_dtype func d) = Some U -> (floating (out_dtype func d) = true -> arith_exact A) -> exact_add (zero_of A U) (add A U).
  Proof.
    intros HF HU HX. destruct (floating (out_dtype func d)) eqn:E.
    - destruct (stored_floating _ _ HU E) as (b & ->). apply exact_float; auto.
    - apply exact_int; [eapply stored_sized; eauto|eapply stored_sum_int; eauto].
  Qed.

  Lemma scatter_right func d T U :
    In func functions -> scatters func = true -> stored d = Some T -> stored (out_dtype func d) = Some U ->
    (d = 0 -> forall k v, In (k, v) rows -> v = I 0 \/ v = I 1) ->
    (floating (out_dtype func d) = true -> In func [0; 1; 50; 51] -> arith_exact A) ->
    (d = 11 -> In func [50; 51] -> low = 0) ->
    exists res, scatter_kernel (kname_for func d) T U func = Some res /\ length res = length out0 /\ reduced (group_spec A func d) low high rows res.
  Proof.
    intros HF HS HT HU HB HX HL. pose proof (stored_sized _ _ HU) as SU. pose proof (inval_bad A AO U SU) as IB.
    unfold scatter_kernel, group_spec. rewrite HT, HU. cbv zeta. cbn [functions In] in HF.
    each_func HF; try discriminate HS; clear HS; cbn [kname_for gather_fun_of] in *.
    - (* sum *) destruct (Z.eqb_spec d 11) as [-> | nd]; cbn [acc_fun_of tmp_fun_of].
      + injection HT as <-. injection HU as <-. assert (X : arith_exact A) by (apply HX; cbn; auto).
        destruct (@scatter_sum_float _ _ _ (ok A (CF 4)) (fun _ => true) (inval A (CF 4)) (zero_of A (CF 4)) (zero_of A D64) (zero_of A D64) (conv A D64) (narrow A (CF 4)) (add A (CF 4)) (fun s _ => s) (add A D64) (fun s _ => s)
          (narrow_zero A AO) (fun s x => narrow_add s x X) low high c rows asg djunks out0 (exact_float 4 X) Hc Ha Hne Hl' H0 H1 Hj') as (r & E & L & S).
        exists r. split; [exact E|]. split; [exact L|]. intros g Hg. destruct (S g Hg) as (w & N & W). exists w. split; [exact N|].
        unfold sum_spec in W. unfold sumf_spec. rewrite narrow_total by assumption. exact W.
      + destruct (group_by_scatter (AccumSum (ok A T) (inval A U) (zero_of A U) (conv A U) (add A U)) (GatherSum (inval A U) (zero_of A U) (add A U)) (inval A U)
          (sum_spec (ok A T) (inval A U) (zero_of A U) (conv A U) (add A U)) low high c rows asg junks out0) as (r & E & L & S); eauto.
        * apply sum_perm. apply (exact_sum 0 d U); [now left|exact HU|intros Y; apply HX; [exact Y|now left]].
        * intros. apply gather_sum; auto. apply (exact_sum 0 d U); [now left|exact HU|intros Y; apply HX; [exact Y|now left]].
    - (* mean *) destruct (Z.eqb_spec d 11) as [-> | nd]; cbn [acc_fun_of tmp_fun_of].
      + injection HT as <-. injection HU as <-. assert (X : arith_exact A) by (apply HX; cbn; auto).
        destruct (@scatter_mean_float _ _ _ (ok A (CF 4)) (ok A (CF 4)) (inval A (CF 4)) (zero_of A (CF 4)) (zero_of A D64) (inval A D64) (conv A D64) (narrow A (CF 4)) (add A (CF 4)) (divn A (CF 4)) (add A D64) (divn A D64)
          (narrow_zero A AO) (fun s x => narrow_add s x X) low high c rows asg djunks out0 (exact_float 4 X) Hc Ha Hne Hl' H0 H1 Hj' IB (fun s n => divn_bad 4 s n X)) as (r & E & L & S).
        exists r. split; [exact E|]. split; [exact L|]. intros g Hg. destruct (S g Hg) as (w & N & W). exists w. split; [exact N|].
        unfold mean_spec in W. unfold meanf_spec. rewrite narrow_div, narrow_total by assumption. exact W.
      + destruct (stored_mean 1 d U) as (b & ->); [cbn; auto|exact HU|].
        assert (X : arith_exact A). { apply HX; [|cbn; auto]. cbn. destruct (Z.eqb_spec d 11); [contradiction|reflexivity]. }
        destruct (group_by_scatter (AccumMean (ok A T) (inval A (CF b)) (zero_of A (CF b)) (conv A (CF b)) (add A (CF b)) (divn A (CF b)))
          (GatherMean (ok A (CF b)) (inval A (CF b)) (zero_of A (CF b)) (add A (CF b)) (divn A (CF b))) (inval A (CF b))
          (mean_spec (ok A T) (inval A (CF b)) (zero_of A (CF b)) (conv A (CF b)) (add A (CF b)) (divn A (CF b))) low high c rows asg junks out0) as (r & E & L & S); eauto.
        * apply mean_perm. now apply exact_float.
        * intros. apply gather_mean; auto; [now apply exact_float|]. intros s n B. now apply divn_bad.
    - (* min *) assert (T = U) by (apply (stored_min 2 d T U); cbn; auto). subst T. cbn [acc_fun_of].
      destruct (group_by_scatter (AccumMin (ok A U) (inval A U) (conv A U) (less A U)) (GatherMin (ok A U) (inval A U) (less A U)) (inval A U)
          (min_spec (ok A U) (inval A U) (conv A U) (less A U)) low high c rows asg junks out0) as (r & E & L & S); eauto.
      + apply min_perm.
      + intros. apply gather_min; auto; [now apply less_ok|]. intros x. apply conv_ok; auto.
    - assert (T = U) by (apply (stored_min 3 d T U); cbn; auto). subst T. cbn [acc_fun_of].
      destruct (group_by_scatter (AccumMin (ok A U) (inval A U) (conv A U) (greater A U)) (GatherMin (ok A U) (inval A U) (greater A U)) (inval A U)
          (min_spec (ok A U) (inval A U) (conv A U) (greater A U)) low high c rows asg junks out0) as (r & E & L & S); eauto.
      + apply min_perm.
      + intros. apply gather_min; auto; [now apply greater_ok|]. intros x. apply conv_ok; auto.
    - (* nansum *) destruct (Z.eqb_spec d 11) as [-> | nd]; cbn [acc_fun_of tmp_fun_of].
      + injection HT as <-. injection HU as <-. assert (X : arith_exact A) by (apply HX; cbn; auto).
        destruct (@scatter_nansum_float _ _ _ (ok A (CF 4)) (fun _ => true) (inval A (CF 4)) (zero_of A (CF 4)) (zero_of A D64) (zero_of A D64) (conv A D64) (narrow A (CF 4)) (add A (CF 4)) (fun s _ => s) (add A D64) (fun s _ => s)
          (narrow_zero A AO) (fun s x => narrow_add s x X) low high c rows asg djunks out0 (exact_float 4 X) Hc Ha Hne Hl' H0 H1 Hj') as (r & E & L & S); [apply HL; cbn; auto|].
        exists r. split; [exact E|]. split; [exact L|]. intros g Hg. destruct (S g Hg) as (w & N & W). exists w. split; [exact N|].
        unfold nansum_spec in W. unfold nansumf_spec. rewrite narrow_total by assumption. exact W.
      + destruct (group_by_scatter (AccumNanSum (ok A T) (zero_of A U) (conv A U) (add A U)) (GatherNanSum (zero_of A U) (add A U)) (inval A U)
          (nansum_spec (ok A T) (zero_of A U) (conv A U) (add A U)) low high c rows asg junks out0) as (r & E & L & S); eauto.
        * apply nansum_perm. apply (exact_sum 50 d U); [right; now left|exact HU|intros Y; apply HX; [exact Y|right; right; now left]].
        * intros. apply gather_nansum; auto. apply (exact_sum 50 d U); [right; now left|exact HU|intros Y; apply HX; [exact Y|right; right; now left]].
    - (* nanmean *) destruct (Z.eqb_spec d 11) as [-> | nd]; cbn [acc_fun_of tmp_fun_of].
      + injection HT as <-. injection HU as <-. assert (X : arith_exact A) by (apply HX; cbn; auto).
        destruct (@scatter_nanmean_float _ _ _ (ok A (CF 4)) (fun _ => true) (inval A (CF 4)) (zero_of A (CF 4)) (zero_of A D64) (zero_of A D64) (conv A D64) (narrow A (CF 4)) (add A (CF 4)) (divn A (CF 4)) (add A D64) (divn A D64)
          (narrow_zero A AO) (fun s x => narrow_add s x X) low high c rows asg djunks out0 (exact_float 4 X) Hc Ha Hne Hl' H0 H1 Hj') as (r & E & L & S); [apply HL; cbn; auto|].
        exists r. split; [exact E|]. split; [exact L|]. intros g Hg. destruct (S g Hg) as (w & N & W). exists w. split; [exact N|].
        unfold nanmean_spec, mean_spec in W. unfold nanmeanf_spec, meanf_spec. rewrite narrow_div, narrow_total by assumption. exact W.
      + destruct (stored_mean 51 d U) as (b & ->); [cbn; auto|exact HU|].
        assert (X : arith_exact A). { apply HX; [|cbn; auto]. cbn. destruct (Z.eqb_spec d 11); [contradiction|reflexivity]. }
        destruct (group_by_scatter (AccumNanMean (ok A T) (inval A (CF b)) (zero_of A (CF b)) (conv A (CF b)) (add A (CF b)) (divn A (CF b)))
          (GatherNanMean (inval A (CF b)) (zero_of A (CF b)) (add A (CF b)) (divn A (CF b))) (inval A (CF b))
          (nanmean_spec (ok A T) (inval A (CF b)) (zero_of A (CF b)) (conv A (CF b)) (add A (CF b)) (divn A (CF b))) low high c rows asg junks out0) as (r & E & L & S); eauto.
        * apply nanmean_perm. now apply exact_float.
        * intros. apply gather_nanmean; auto. now apply exact_float.
    - (* nanmin *) assert (T = U) by (apply (stored_min 52 d T U); cbn; auto). subst T. destruct (Z.eqb_spec d 0) as [-> | nd]; cbn [acc_fun_of].
      + destruct (group_by_scatter (AccumMin (ok A U) (inval A U) (conv A U) (less A U)) (GatherNanMin (ok A U) (less A U)) (inval A U)
          (fun V r => forallb (ok A U) V = true -> nanmin_spec (ok A U) (inval A U) (conv A U) (less A U) V r) low high c rows asg junks out0) as (r & E & L & S); eauto.
        * intros V W r P H B. eapply nanmin_perm; [exact P|]. apply H. now rewrite (forallb_perm' _ _ _ P).
        * intros vs cs C V. apply gather_bool; auto; [now apply less_ok|]. intros x. apply conv_ok; auto.
        * exists r. split; [exact E|]. split; [exact L|]. intros g Hg. destruct (S g Hg) as (w & N & W). exists w. split; [exact N|]. apply W.
          apply forallb_forall. intros x X. apply group_vals_in in X as (k & X). injection HT as <-. eapply bool_valid, HB; eauto.
      + destruct (group_by_scatter (AccumNanMin (ok A U) (ok A U) (inval A U) (conv A U) (less A U)) (GatherNanMin (ok A U) (less A U)) (inval A U)
          (nanmin_spec (ok A U) (inval A U) (conv A U) (less A U)) low high c rows asg junks out0) as (r & E & L & S); eauto.
        * apply nanmin_perm.
        * intros. apply gather_nanmin; auto; [now apply less_ok|]. intros x. apply conv_ok; auto.
    - (* nanmax *) assert (T = U) by (apply (stored_min 53 d T U); cbn; auto). subst T. destruct (Z.eqb_spec d 0) as [-> | nd]; cbn [acc_fun_of].
      + destruct (group_by_scatter (AccumMin (ok A U) (inval A U) (conv A U) (greater A U)) (GatherNanMin (ok A U) (greater A U)) (inval A U)
          (fun V r => forallb (ok A U) V = true -> nanmin_spec (ok A U) (inval A U) (conv A U) (greater A U) V r) low high c rows asg junks out0) as (r & E & L & S); eauto.
        * intros V W r P H B. eapply nanmin_perm; [exact P|]. apply H. now rewrite (forallb_perm' _ _ _ P).
        * intros vs cs C V. apply gather_bool; auto; [now apply greater_ok|]. intros x. apply conv_ok; auto.
        * exists r. split; [exact E|]. split; [exact L|]. intros g Hg. destruct (S g Hg) as (w & N & W). exists w. split; [exact N|]. apply W.
          apply forallb_forall. intros x X. apply group_vals_in in X as (k & X). injection HT as <-. eapply bool_valid, HB; eauto.
      + destruct (group_by_scatter (AccumNanMin (ok A U) (ok A U) (inval A U) (conv A U) (greater A U)) (GatherNanMin (ok A U) (greater A U)) (inval A U)
          (nanmin_spec (ok A U) (inval A U) (conv A U) (greater A U)) low high c rows asg junks out0) as (r & E & L & S); eauto.
        * apply nanmin_perm.
        * intros. apply gather_nanmin; auto; [now apply greater_ok|]. intros x. apply conv_ok; auto.
  Qed.
End Scatter.
