(** Proofs: scatter and gather of the float32 functions. *)
From Verif Require Import Base Mem MemLemmas Inter AccumModel AccumSpec AccumProofs Accum2Proofs Accum3Proofs.
Local Open Scope Z_scope.

Section Core.
  Context {T U D : Type} (uinv zero : U) (zeroD : D).
  Notation tcell := (@tcell U D).
  Context (t : @tmp_fun T U D) (J : list T -> tcell -> Prop) (low high : Z).
  Hypothesis J_later : forall pass rows g V c, 0 < pass -> low <= g < high -> J V c ->
    J (V ++ group_vals rows g) (tbin zero zeroD t pass low high rows g c).
  Hypothesis J_first : forall rows g o d, low <= g < high -> J (group_vals rows g) (tbin zero zeroD t 0 low high rows g (o, 0, d)).

  Lemma core_tmp_later N : 0 <= low <= high -> high <= Z.of_nat N -> forall blocks pass (h : Z -> tcell) W, 0 < pass ->
    (forall g, low <= g < high -> J (W g) (h g)) ->
    exists h', core_run (fun p rows cells => accum_tmp zero zeroD t p low high rows cells) pass blocks (tab N h) = Some (tab N h') /\
      forall g, low <= g < high -> J (W g ++ group_vals (concat blocks) g) (h' g).
  Proof using J_later.
    clear J_first. intros H0 H1. induction blocks as [|b bs IH]; intros pass h W Hp HJ; cbn [core_run].
    - exists h. split; auto. intros g Hg. unfold group_vals. simpl. rewrite app_nil_r. auto.
    - destruct (accum_tmp_tab zero zeroD t N pass low high b h H0 H1) as (h1 & -> & Hh1).
      destruct (IH (pass + 1) h1 (fun g => W g ++ group_vals b g)) as (h' & -> & Hh').
      + lia.
      + intros g Hg. rewrite Hh1 by auto. auto.
      + exists h'. split; auto. intros g Hg. cbn [concat]. rewrite group_vals_app, app_assoc. auto.
  Qed.

  Lemma core_tmp N blocks (h : Z -> tcell) : 0 <= low <= high -> high <= Z.of_nat N ->
    (forall g, low <= g < high -> snd (fst (h g)) = 0) ->
    exists h', core_run (fun p rows cells => accum_tmp zero zeroD t p low high rows cells) 0 blocks (tab N h) = Some (tab N h') /\
      forall g, low <= g < high -> match blocks with [] => h' g = h g | _ => J (group_vals (concat blocks) g) (h' g) end.
  Proof using J_first J_later.
    intros H0 H1 Hk. destruct blocks as [|b bs]; cbn [core_run].
    - exists h. split; auto.
    - destruct (accum_tmp_tab zero zeroD t N 0 low high b h H0 H1) as (h1 & -> & Hh1).
      destruct (core_tmp_later N H0 H1 bs (0 + 1) h1 (fun g => group_vals b g)) as (h' & -> & Hh').
      + lia.
      + intros g Hg. rewrite Hh1 by auto. specialize (Hk g Hg). destruct (h g) as [[o k] d]. cbn in Hk. subst k. auto.
      + exists h'. split; auto. intros g Hg. cbn [concat]. rewrite group_vals_app. auto.
  Qed.

  Context (a : acc_fun T U).
  Hypothesis J_cell : forall V c, J V c -> exists x, fst c = fold_left (a_step a) V (a_clear a (x, 0)).

  Lemma scatter_tmp_tab N : 0 <= low <= high -> high <= Z.of_nat N ->
    forall asg junks, length junks = length asg -> Forall (fun j => length j = N) junks ->
    exists cs : list (bool * (Z -> cell U)),
      scatter_tmp zero zeroD t low high asg junks = Some (map (fun p => (fst p, tab N (snd p))) cs) /\
      length cs = length asg /\
      forall g, low <= g < high -> Forall2 (core_cell a) (map (vals_at g) asg) (at_bin g cs).
  Proof using J_first J_later J_cell uinv.
    intros H0 H1. induction asg as [|blocks asg IH]; intros [|junk junks] Hl Hj; try discriminate.
    - exists []. repeat split. constructor.
    - inversion Hj as [|? ? Hjk Hjs]; subst. cbn [scatter_tmp].
      assert (Ej : map (fun p => (fst p, 0, snd p)) junk = @tab tcell (length junk) (fun g => (fst (nth (Z.to_nat g) junk (uinv, zeroD)), 0, snd (nth (Z.to_nat g) junk (uinv, zeroD))))).
      { rewrite (tab_of junk (uinv, zeroD)) at 1. now rewrite map_tab. }
      rewrite Ej.
      destruct (core_tmp (length junk) blocks (fun g => (fst (nth (Z.to_nat g) junk (uinv, zeroD)), 0, snd (nth (Z.to_nat g) junk (uinv, zeroD)))) H0 H1) as (h' & -> & Hh'); [reflexivity|].
      destruct (IH junks) as (cs & -> & Hlen & Hcs); auto.
      exists ((negb (match blocks with [] => true | _ => false end), fun g => fst (h' g)) :: cs). split; [cbn [map fst snd]; rewrite map_tab; reflexivity|].
      split; [cbn [length]; lia|].
      intros g Hg. cbn [map at_bin fst snd]. constructor; [|apply (Hcs g Hg)]. specialize (Hh' g Hg).
      destruct blocks as [|b bs]; cbn [vals_at negb].
      + rewrite Hh'. eexists. reflexivity.
      + destruct (J_cell _ _ Hh') as (x & Ex). exists x. rewrite Ex. reflexivity.
  Qed.

  Lemma group_by_scatter_tmp (gf : @gather_fun U) (P : list T -> U -> Prop) c
      (rows : list (Z * T)) asg junks out0 :
    (forall V W r, Permutation V W -> P V r -> P W r) ->
    (forall vs cs, Forall2 (core_cell a) vs cs ->
       P (concat (map core_vals vs)) (g_finish gf (gfold (g_step gf) true cs
         (match g_fill gf with Some z => z | None => uinv end, match cs with (_, c) :: _ => snd c | [] => 0 end, 0)))) ->
    (0 < c)%nat -> assigned c rows asg -> asg <> [] -> length junks = length asg ->
    0 <= low <= high -> high <= Z.of_nat (length out0) -> Forall (fun j => length j = length out0) junks ->
    exists res, GroupByScatterFloat uinv zero zeroD t gf low high asg junks out0 = Some res /\ length res = length out0 /\ reduced P low high rows res.
  Proof using J_first J_later J_cell.
    intros HP HG Hc Ha Hne Hl H0 H1 Hj.
    destruct (scatter_tmp_tab (length out0) H0 H1 asg junks Hl Hj) as (cs & Es & Hlen & Hcs).
    unfold GroupByScatterFloat. rewrite Es.
    destruct (gather_tab gf uinv low high (length out0) cs uinv out0 H0 H1 eq_refl) as (res & -> & Hr & Hn).
    { intros ->. destruct asg; [congruence|discriminate]. }
    exists res. split; auto. split; auto. intros g Hg. rewrite (Hn g Hg). eexists. split; [reflexivity|].
    eapply HP; [|apply (HG _ _ (Hcs g Hg))]. eapply assigned_vals; eauto.
  Qed.
End Core.

Section Float.
  Context {T U D : Type} (okT : T -> bool) (okU : U -> bool) (uinv zero : U) (zeroD invD : D) (convD : T -> D) (castf : D -> U)
          (add : U -> U -> U) (div : U -> Z -> U) (addD : D -> D -> D) (divD : D -> Z -> D).
  Notation tcell := (@tcell U D).
  Let conv x := castf (convD x).


  (** the four functions *)
  Let totD := fold_left (fun s x => addD s (convD x)).
  Let tot := fold_left (fun s x => add s (conv x)).
  Notation SF := (AccumSumFloat okT uinv convD castf addD).
  Notation NSF := (AccumNanSumFloat okT convD castf addD).
  Notation MF := (AccumMeanFloat okT uinv invD convD castf addD divD).
  Notation NMF := (AccumNanMeanFloat okT uinv convD castf addD divD).

  Hypothesis cast_zero : castf zeroD = zero.
  Hypothesis cast_add : forall s x, castf (addD s (convD x)) = add (castf s) (conv x).

  Lemma cast_tot V : forall d, castf (totD V d) = tot V (castf d).
  Proof using cast_add. induction V as [|x V IH]; intros d; simpl; auto. now rewrite IH, cast_add. Qed.

  Definition Jsum (V : list T) (c : tcell) : Prop :=
    let '(o, k, d) := c in if forallb okT V then o = castf d /\ k = 0 /\ d = totD V zeroD else o = uinv /\ k = -1.
  Definition Jnansum (V : list T) (c : tcell) : Prop :=
    let '(o, k, d) := c in o = castf d /\ k = 0 /\ d = totD (filter okT V) zeroD.
  Definition Jmean (V : list T) (c : tcell) : Prop :=
    let '(o, k, d) := c in if forallb okT V then o = castf d /\ k = Z.of_nat (length V) /\ d = totD V zeroD else o = uinv /\ k = -1.
  Definition Jnanmean (V : list T) (c : tcell) : Prop :=
    let '(o, k, d) := c in o = castf d /\ k = Z.of_nat (length (filter okT V)) /\ d = totD (filter okT V) zeroD.

  (* a call's accumulate-and-copy on one bin *)
  Definition tacc (t : @tmp_fun T U D) (all : bool) (vals : list T) (c : tcell) : tcell :=
    let c2 := fold_left (t_step t) vals c in
    if all then t_copy t c2 else fold_left (fun c _ => t_copy t c) vals c2.

  Lemma tbin_later (t : @tmp_fun T U D) pass low high rows g c : 0 < pass ->
    tbin zero zeroD t pass low high rows g c = tacc t (high - low <? Z.of_nat (length rows)) (group_vals rows g) c.
  Proof. intros Hp. unfold tbin, tacc. rewrite (proj2 (Z.leb_gt pass 0)), (proj2 (Z.ltb_ge pass 0)) by lia. destruct c as [[o k] d]. reflexivity. Qed.

  Lemma tbin_first (t : @tmp_fun T U D) low high rows g o d : low <= g < high -> (t_from_low t = true \/ low = 0) ->
    tbin zero zeroD t 0 low high rows g (o, 0, d) = tacc t (high - low <? Z.of_nat (length rows)) (group_vals rows g) (zero, 0, zeroD).
  Proof.
    intros Hg Hb. unfold tbin, tacc. change (0 <=? 0) with true. change (0 <? 0) with false. cbv iota.
    rewrite (proj2 (inr_true _ _ g)); [reflexivity|]. destruct Hb as [->| ->]; [lia|]. destruct (t_from_low t); lia.
  Qed.

  Lemma totD_app V W d : totD (V ++ W) d = totD W (totD V d).
  Proof. apply fold_left_app. Qed.

  Lemma Jsum_acc all V vals c : Jsum V c -> Jsum (V ++ vals) (tacc SF all vals c).
  Proof.
    destruct c as [[o k] d]. unfold Jsum, tacc. rewrite forallb_app. destruct (forallb okT V) eqn:EV; cbn [andb].
    - intros (-> & -> & ->). destruct (sumf_fold okT uinv convD castf addD vals (castf (totD V zeroD)) (totD V zeroD)) as (d' & ->).
      change (t_copy SF) with (@copy_valid U D uinv castf). rewrite copy_row_many by apply copy_valid_idem. rewrite totD_app.
      destruct vals as [|v vals]; [destruct all; cbn; auto|].
      destruct (forallb okT (v :: vals)), all; cbn [copy_valid]; auto.
    - intros (-> & ->). rewrite sumf_bad. change (t_copy SF) with (@copy_valid U D uinv castf). rewrite copy_row_many by apply copy_valid_idem.
      destruct all, vals; cbn; auto.
  Qed.

  Lemma Jmean_acc all V vals c : Jmean V c -> Jmean (V ++ vals) (tacc MF all vals c).
  Proof.
    destruct c as [[o k] d]. unfold Jmean, tacc. rewrite forallb_app. destruct (forallb okT V) eqn:EV; cbn [andb].
    - intros (-> & -> & ->). destruct (meanf_fold okT uinv invD convD castf addD divD vals (castf (totD V zeroD)) (Z.of_nat (length V)) (totD V zeroD)) as (d' & ->); [lia|].
      change (t_copy MF) with (@copy_valid U D uinv castf). rewrite copy_row_many by apply copy_valid_idem. rewrite totD_app, app_length, Nat2Z.inj_add.
      assert (E : 0 <=? Z.of_nat (length V) + Z.of_nat (length vals) = true) by lia.
      destruct vals as [|v vals].
      + cbn [forallb]. destruct all; cbn [copy_valid]; rewrite ?E; auto.
      + destruct (forallb okT (v :: vals)), all; cbn [copy_valid]; rewrite ?E; auto.
    - intros (-> & ->). rewrite meanf_bad. change (t_copy MF) with (@copy_valid U D uinv castf). rewrite copy_row_many by apply copy_valid_idem.
      destruct all, vals; cbn; auto.
  Qed.

  Lemma Jnansum_acc all V vals c : Jnansum V c -> Jnansum (V ++ vals) (tacc NSF all vals c).
  Proof.
    destruct c as [[o k] d]. unfold Jnansum, tacc. intros (-> & -> & ->). rewrite filter_app, totD_app, nansumf_fold.
    change (t_copy NSF) with (@copy_all U D castf). rewrite copy_row_many by apply copy_all_idem.
    destruct all, vals; cbn; auto.
  Qed.
  Lemma Jnanmean_acc all V vals c : Jnanmean V c -> Jnanmean (V ++ vals) (tacc NMF all vals c).
  Proof.
    destruct c as [[o k] d]. unfold Jnanmean, tacc. intros (-> & -> & ->). rewrite filter_app, totD_app, nanmeanf_fold, app_length, Nat2Z.inj_add.
    change (t_copy NMF) with (@copy_all U D castf). rewrite copy_row_many by apply copy_all_idem.
    destruct all, vals; cbn [copy_all filter length]; auto.
  Qed.

  Lemma Jsum_cell V c : Jsum V c -> exists x : U, fst c = fold_left (a_step (AccumSum okT uinv zero conv add)) V (a_clear (AccumSum okT uinv zero conv add) (x, 0)).
  Proof using cast_zero cast_add.
    destruct c as [[o k] d]. unfold Jsum. intros H. exists zero. change (a_clear _ (zero, 0)) with (zero, 0). rewrite sum_fold.
    destruct (forallb okT V); cbn [fst].
    - destruct H as (-> & -> & ->). rewrite cast_tot, cast_zero. reflexivity.
    - destruct H as (-> & ->). reflexivity.
  Qed.
  Lemma Jnansum_cell V c : Jnansum V c -> exists x : U, fst c = fold_left (a_step (AccumNanSum okT zero conv add)) V (a_clear (AccumNanSum okT zero conv add) (x, 0)).
  Proof using cast_zero cast_add.
    destruct c as [[o k] d]. unfold Jnansum. intros (-> & -> & ->). exists zero. change (a_clear _ (zero, 0)) with (zero, 0). rewrite nansum_fold.
    cbn [fst]. rewrite cast_tot, cast_zero. reflexivity.
  Qed.
  Lemma Jmean_cell V c : Jmean V c -> exists x : U, fst c = fold_left (a_step (AccumMean okT uinv zero conv add div)) V (a_clear (AccumMean okT uinv zero conv add div) (x, 0)).
  Proof using cast_zero cast_add.
    destruct c as [[o k] d]. unfold Jmean. intros H. exists zero. change (a_clear _ (zero, 0)) with (zero, 0). rewrite mean_fold by apply Z.le_refl.
    destruct (forallb okT V); cbn [fst].
    - destruct H as (-> & -> & ->). rewrite cast_tot, cast_zero. reflexivity.
    - destruct H as (-> & ->). reflexivity.
  Qed.
  Lemma Jnanmean_cell V c : Jnanmean V c -> exists x : U, fst c = fold_left (a_step (AccumNanMean okT uinv zero conv add div)) V (a_clear (AccumNanMean okT uinv zero conv add div) (x, 0)).
  Proof using cast_zero cast_add.
    destruct c as [[o k] d]. unfold Jnanmean. intros (-> & -> & ->). exists zero. change (a_clear _ (zero, 0)) with (zero, 0). rewrite nanmean_fold.
    cbn [fst]. rewrite cast_tot, cast_zero. reflexivity.
  Qed.

  Section Final.
  Context (low high : Z) (c : nat) (rows : list (Z * T)) (asg : list (list (list (Z * T)))) (junks : list (list (U * D))) (out0 : list U).
  Hypothesis exact : exact_add zero add.
  Hypothesis block_pos : (0 < c)%nat.
  Hypothesis asg_ok : assigned c rows asg.
  Hypothesis asg_ne : asg <> [].
  Hypothesis junk_n : length junks = length asg.
  Hypothesis range : 0 <= low <= high.
  Hypothesis range_n : high <= Z.of_nat (length out0).
  Hypothesis junk_len : Forall (fun j => length j = length out0) junks.

  Lemma scatter_sum_float :
    exists res, GroupByScatterFloat uinv zero zeroD SF (GatherSum uinv zero add) low high asg junks out0 = Some res /\
      length res = length out0 /\ reduced (sum_spec okT uinv zero conv add) low high rows res.
  Proof.
    eapply group_by_scatter_tmp with (J := Jsum) (a := AccumSum okT uinv zero conv add) (c := c); auto.
    - intros. rewrite tbin_later by auto. now apply Jsum_acc.
    - intros. rewrite tbin_first by auto. apply (Jsum_acc _ [] _ (zero, 0, zeroD)). cbn. auto.
    - apply Jsum_cell.
    - apply sum_perm; auto.
    - intros vs cs F. apply gather_sum; auto.
  Qed.
  Lemma scatter_nansum_float : low = 0 ->
    exists res, GroupByScatterFloat uinv zero zeroD NSF (GatherNanSum zero add) low high asg junks out0 = Some res /\
      length res = length out0 /\ reduced (nansum_spec okT zero conv add) low high rows res.
  Proof.
    intros Hlow. eapply group_by_scatter_tmp with (J := Jnansum) (a := AccumNanSum okT zero conv add) (c := c); auto.
    - intros. rewrite tbin_later by auto. now apply Jnansum_acc.
    - intros. rewrite tbin_first by auto. apply (Jnansum_acc _ [] _ (zero, 0, zeroD)). cbn. auto.
    - apply Jnansum_cell.
    - apply nansum_perm; auto.
    - intros vs cs F. apply gather_nansum; auto.
  Qed.
  Lemma scatter_mean_float : okU uinv = false -> (forall s n, okU s = false -> div s n = uinv) ->
    exists res, GroupByScatterFloat uinv zero zeroD MF (GatherMean okU uinv zero add div) low high asg junks out0 = Some res /\
      length res = length out0 /\ reduced (mean_spec okT uinv zero conv add div) low high rows res.
  Proof.
    intros. eapply group_by_scatter_tmp with (J := Jmean) (a := AccumMean okT uinv zero conv add div) (c := c); auto.
    - intros. rewrite tbin_later by auto. now apply Jmean_acc.
    - intros. rewrite tbin_first by auto. apply (Jmean_acc _ [] _ (zero, 0, zeroD)). cbn. auto.
    - apply Jmean_cell.
    - apply mean_perm; auto.
    - intros vs cs F. apply gather_mean; auto.
  Qed.
  Lemma scatter_nanmean_float : low = 0 ->
    exists res, GroupByScatterFloat uinv zero zeroD NMF (GatherNanMean uinv zero add div) low high asg junks out0 = Some res /\
      length res = length out0 /\ reduced (nanmean_spec okT uinv zero conv add div) low high rows res.
  Proof.
    intros Hlow. eapply group_by_scatter_tmp with (J := Jnanmean) (a := AccumNanMean okT uinv zero conv add div) (c := c); auto.
    - intros. rewrite tbin_later by auto. now apply Jnanmean_acc.
    - intros. rewrite tbin_first by auto. apply (Jnanmean_acc _ [] _ (zero, 0, zeroD)). cbn. auto.
    - apply Jnanmean_cell.
    - apply nanmean_perm; auto.
    - intros vs cs F. apply gather_nanmean; auto.
  Qed.
  End Final.
End Float.
