(** Proofs: the group-by theorems put together, and the float32 functions. *)
From Verif Require Import Base Mem MemLemmas Inter AccumModel AccumSpec AccumProofs Accum2Proofs.
Local Open Scope Z_scope.

Lemma firstn_skipn_concat {A} (l : list A) n : forall s,
  firstn n (skipn s l) = concat (map (fun i => match nth_error l i with Some x => [x] | None => [] end) (seq s n)).
Proof.
  induction n as [|n IH]; intros s; auto. cbn [seq map concat]. rewrite <- IH.
  destruct (nth_error l s) eqn:E.
  - assert (K : skipn s l = a :: skipn (S s) l).
    { clear IH. revert s E. induction l as [|y l IHl]; intros [|s] E; simpl in E; try discriminate.
      - injection E as ->. reflexivity.
      - cbn [skipn]. rewrite (IHl s E). reflexivity. }
    rewrite K. reflexivity.
  - apply nth_error_None in E. rewrite !skipn_all2 by lia. now rewrite !firstn_nil.
Qed.

Lemma concat_row_blocks {A} c (rows : list A) : (0 < c)%nat -> concat (row_blocks c rows) = rows.
Proof.
  intros Hc. unfold row_blocks.
  rewrite (map_ext _ (fun b => concat (map (fun i => match nth_error rows i with Some x => [x] | None => [] end) (seq (fst b) (snd b))))).
  - rewrite chunks_map by auto. rewrite <- firstn_skipn_concat. simpl. apply firstn_all.
  - intros b. apply firstn_skipn_concat.
Qed.

Lemma concat_perm {A} (l1 l2 : list (list A)) : Permutation l1 l2 -> Permutation (concat l1) (concat l2).
Proof.
  intros P. induction P; simpl; auto.
  - now apply Permutation_app_head.
  - rewrite !app_assoc. apply Permutation_app_tail. apply Permutation_app_comm.
  - etransitivity; eauto.
Qed.

Lemma concat_concat {A} (l : list (list (list A))) : concat (concat l) = concat (map (@concat A) l).
Proof. induction l; simpl; auto. now rewrite concat_app, IHl. Qed.

Lemma assigned_vals {T} c (rows : list (Z * T)) asg g : (0 < c)%nat -> assigned c rows asg ->
  Permutation (concat (map core_vals (map (vals_at g) asg))) (group_vals rows g).
Proof.
  intros Hc H. rewrite map_map.
  rewrite (map_ext _ (fun b => group_vals (concat b) g)) by (intros [|? ?]; reflexivity).
  rewrite <- (map_map (@concat _) (fun l => group_vals l g)), <- group_vals_concat, <- concat_concat.
  apply concat_perm in H. rewrite concat_row_blocks in H by auto.
  unfold group_vals. apply Permutation_map. clear - H. induction H; simpl; auto.
  - destruct (fst x =? g); auto.
  - destruct (fst x =? g), (fst y =? g); auto. constructor.
  - etransitivity; eauto.
Qed.

Section Scatter.
  Context {T U : Type}.
  Lemma group_by_scatter (a : acc_fun T U) (gf : @gather_fun U) (uinv : U) (P : list T -> U -> Prop) low high c
      (rows : list (Z * T)) asg junks out0 :
    (forall V W r, Permutation V W -> P V r -> P W r) ->
    (forall vs cs, Forall2 (core_cell a) vs cs ->
       P (concat (map core_vals vs)) (g_finish gf (gfold (g_step gf) true cs
         (match g_fill gf with Some z => z | None => uinv end, match cs with (_, c) :: _ => snd c | [] => 0 end, 0)))) ->
    (0 < c)%nat -> assigned c rows asg -> asg <> [] -> length junks = length asg ->
    0 <= low <= high -> high <= Z.of_nat (length out0) -> Forall (fun j => length j = length out0) junks ->
    exists res, GroupByScatter uinv a gf low high asg junks out0 = Some res /\ length res = length out0 /\ reduced P low high rows res.
  Proof.
    intros HP HG Hc Ha Hne Hl H0 H1 Hj.
    destruct (scatter_tab a (length out0) low high uinv H0 H1 asg junks Hl Hj) as (cs & Es & Hlen & Hcs).
    unfold GroupByScatter. rewrite Es.
    destruct (gather_tab gf uinv low high (length out0) cs uinv out0 H0 H1 eq_refl) as (res & -> & Hr & Hn).
    { intros ->. destruct asg; [congruence|discriminate]. }
    exists res. split; auto. split; auto. intros g Hg. rewrite (Hn g Hg). eexists. split; [reflexivity|].
    eapply HP; [|apply (HG _ _ (Hcs g Hg))]. eapply assigned_vals; eauto.
  Qed.
End Scatter.

(** ** Permutation invariance of the specifications *)
Section Perm.
  Context {T U : Type} (okT : T -> bool) (okU : U -> bool) (uinv zero : U) (conv : T -> U)
          (add : U -> U -> U) (div : U -> Z -> U) (lt : U -> U -> bool).
  Lemma sum_perm : exact_add zero add -> forall V W r, Permutation V W -> sum_spec okT uinv zero conv add V r -> sum_spec okT uinv zero conv add W r.
  Proof. intros Hx V W r P. unfold sum_spec, total. rewrite (forallb_perm okT V W P). rewrite (tot_perm zero conv add V W Hx P). auto. Qed.
  Lemma nansum_perm : exact_add zero add -> forall V W r, Permutation V W -> nansum_spec okT zero conv add V r -> nansum_spec okT zero conv add W r.
  Proof. intros Hx V W r P. unfold nansum_spec, total. rewrite (tot_perm zero conv add _ _ Hx (filter_perm okT V W P)). auto. Qed.
  Lemma mean_perm : exact_add zero add -> forall V W r, Permutation V W -> mean_spec okT uinv zero conv add div V r -> mean_spec okT uinv zero conv add div W r.
  Proof.
    intros Hx V W r P. unfold mean_spec, total. rewrite (forallb_perm okT V W P), (Permutation_length P).
    rewrite (tot_perm zero conv add V W Hx P). auto.
  Qed.
  Lemma nanmean_perm : exact_add zero add -> forall V W r, Permutation V W -> nanmean_spec okT uinv zero conv add div V r -> nanmean_spec okT uinv zero conv add div W r.
  Proof. intros Hx V W r P. unfold nanmean_spec. apply mean_perm; auto. now apply filter_perm. Qed.
  Lemma min_perm : forall V W r, Permutation V W -> min_spec okT uinv conv lt V r -> min_spec okT uinv conv lt W r.
  Proof.
    intros V W r P. unfold min_spec. rewrite (forallb_perm okT V W P), (Permutation_length P).
    destruct (forallb okT W && _); auto. intros [I L].
    assert (Pm : Permutation (map conv V) (map conv W)) by now apply Permutation_map.
    split; [eapply Permutation_in; eauto|]. intros y Hy. apply L. eapply Permutation_in; [apply Permutation_sym|]; eauto.
  Qed.
  Lemma nanmin_perm : forall V W r, Permutation V W -> nanmin_spec okT uinv conv lt V r -> nanmin_spec okT uinv conv lt W r.
  Proof. intros V W r P. unfold nanmin_spec. apply min_perm. now apply filter_perm. Qed.

  Lemma min_unique : order_total okU lt -> (forall x, okT x = true -> okU (conv x) = true) ->
    forall V r r', min_spec okT uinv conv lt V r -> min_spec okT uinv conv lt V r' -> r = r'.
  Proof.
    intros Ht Hc V r r'. unfold min_spec. destruct (forallb okT V) eqn:E; cbn [andb]; [|congruence].
    destruct (negb _); [|congruence]. intros [I L] [I' L'].
    assert (Ok : forall y, In y (map conv V) -> okU y = true).
    { intros y Hy. apply in_map_iff in Hy as (x & <- & Hx). rewrite forallb_forall in E. auto. }
    apply Ht; auto.
  Qed.
  Lemma nanmin_unique : order_total okU lt -> (forall x, okT x = true -> okU (conv x) = true) ->
    forall V r r', nanmin_spec okT uinv conv lt V r -> nanmin_spec okT uinv conv lt V r' -> r = r'.
  Proof. intros Ht Hc V r r'. apply min_unique; auto. Qed.
End Perm.

(** Two results that satisfy the same deterministic specification agree on the range. *)
Lemma reduced_agree {T U} (P : list T -> U -> Prop) low high (rows : list (Z * T)) r1 r2 :
  (forall V r r', P V r -> P V r' -> r = r') ->
  reduced P low high rows r1 -> reduced P low high rows r2 -> 
  forall g, low <= g < high -> nth_error r1 (Z.to_nat g) = nth_error r2 (Z.to_nat g).
Proof.
  intros D H1 H2 g Hg. destruct (H1 g Hg) as (x & -> & Hx), (H2 g Hg) as (y & -> & Hy). f_equal. eauto.
Qed.

(** ** Sequential *)
Section Seq.
  Context {T U : Type} (okT : T -> bool) (okU : U -> bool) (uinv zero : U) (conv : T -> U)
          (add : U -> U -> U) (div : U -> Z -> U) (lt : U -> U -> bool).

  Lemma one_sum vals x : sum_spec okT uinv zero conv add vals
    (fst (a_finish (AccumSum okT uinv zero conv add) (fold_left (a_step (AccumSum okT uinv zero conv add)) vals (a_clear (AccumSum okT uinv zero conv add) (x, 0))))).
  Proof.
    change (a_clear _ (x, 0)) with (zero, 0). rewrite sum_fold. unfold sum_spec, total. destruct (forallb okT vals); reflexivity.
  Qed.
  Lemma one_nansum vals x : nansum_spec okT zero conv add vals
    (fst (a_finish (AccumNanSum okT zero conv add) (fold_left (a_step (AccumNanSum okT zero conv add)) vals (a_clear (AccumNanSum okT zero conv add) (x, 0))))).
  Proof. change (a_clear _ (x, 0)) with (zero, 0). rewrite nansum_fold. reflexivity. Qed.
  Lemma one_mean vals x : mean_spec okT uinv zero conv add div vals
    (fst (a_finish (AccumMean okT uinv zero conv add div) (fold_left (a_step (AccumMean okT uinv zero conv add div)) vals (a_clear (AccumMean okT uinv zero conv add div) (x, 0))))).
  Proof.
    change (a_clear _ (x, 0)) with (zero, 0). rewrite mean_fold by apply Z.le_refl. unfold mean_spec, total.
    destruct (forallb okT vals); [|reflexivity]. cbn [andb]. destruct vals; reflexivity.
  Qed.
  Lemma one_nanmean vals x : nanmean_spec okT uinv zero conv add div vals
    (fst (a_finish (AccumNanMean okT uinv zero conv add div) (fold_left (a_step (AccumNanMean okT uinv zero conv add div)) vals (a_clear (AccumNanMean okT uinv zero conv add div) (x, 0))))).
  Proof.
    change (a_clear _ (x, 0)) with (zero, 0). rewrite nanmean_fold. unfold nanmean_spec, mean_spec, total.
    rewrite forallb_filter. cbn [andb]. destruct (filter okT vals); reflexivity.
  Qed.
  Lemma one_min vals x : order_ok okU lt -> (forall x, okT x = true -> okU (conv x) = true) -> min_spec okT uinv conv lt vals
    (fst (a_finish (AccumMin okT uinv conv lt) (fold_left (a_step (AccumMin okT uinv conv lt)) vals (a_clear (AccumMin okT uinv conv lt) (x, 0))))).
  Proof.
    intros Ho Hc. change (a_clear _ (x, 0)) with (uinv, 0). rewrite min_fold. unfold min_spec.
    destruct (forallb okT vals) eqn:E; [|reflexivity]. cbn [andb]. destruct vals as [|v vals]; [reflexivity|]. cbn [length Nat.eqb negb].
    eapply lmin_least1; eauto.
  Qed.
  Lemma one_nanmin vals x : order_ok okU lt -> (forall x, okT x = true -> okU (conv x) = true) -> okU uinv = false ->
    nanmin_spec okT uinv conv lt vals
    (fst (a_finish (AccumNanMin okT okU uinv conv lt) (fold_left (a_step (AccumNanMin okT okU uinv conv lt)) vals (a_clear (AccumNanMin okT okU uinv conv lt) (x, 0))))).
  Proof.
    intros Ho Hc Hi. change (a_clear _ (x, 0)) with (uinv, 0). rewrite nanmin_fold by auto. unfold nanmin_spec, min_spec.
    rewrite forallb_filter. cbn [andb]. pose proof (forallb_filter okT vals) as F.
    destruct (filter okT vals) as [|v vs]; [reflexivity|]. rewrite Hi. cbn [length Nat.eqb negb]. eapply lmin_least1; eauto.
  Qed.
End Seq.

(** ** float32 *)
Section Float.
  Context {T U D : Type} (okT : T -> bool) (uinv zero : U) (zeroD invD : D) (convD : T -> D) (castf : D -> U)
          (addD : D -> D -> D) (divD : D -> Z -> D).
  Notation tcell := (@tcell U D).

  (* the state of one bin after a call *)
  Definition tbin (t : @tmp_fun T U D) (pass low high : Z) (rows : list (Z * T)) (g : Z) (c : tcell) : tcell :=
    let '(o, k, d) := c in
    let c1 := if pass <=? 0 then (if inr (if t_from_low t then low else 0) ((if t_from_low t then low else 0) + (high - low)) g then zero else o, k, zeroD) else c in
    let c2 := fold_left (t_step t) (group_vals rows g) c1 in
    let c3 := if high - low <? Z.of_nat (length rows) then t_copy t c2 else fold_left (fun c _ => t_copy t c) (group_vals rows g) c2 in
    if pass <? 0 then t_finish t c3 else c3.

  Lemma accum_tmp_tab (t : tmp_fun) N pass low high rows (h : Z -> tcell) : 0 <= low <= high -> high <= Z.of_nat N ->
    exists h', accum_tmp zero zeroD t pass low high rows (tab N h) = Some (tab N h') /\
      forall g, low <= g < high -> h' g = tbin t pass low high rows g (h g).
  Proof using.
    clear okT uinv invD convD castf addD divD. intros H0 H1. unfold accum_tmp.
    assert (E : forall b, b + Z.of_nat (Z.to_nat (high - low)) = b + (high - low)) by lia.
    assert (El : low + (high - low) = high) by lia.
    assert (Hb : 0 <= (if t_from_low t then low else 0) /\ (if t_from_low t then low else 0) + (high - low) <= Z.of_nat N) by (destruct (t_from_low t); lia).
    set (b := if t_from_low t then low else 0) in *.
    pose (h1 := fun g => if pass <=? 0 then let c := (if inr b (b + (high - low)) g then (let '(o, k, d) := h g in (zero, k, d)) else h g) in
                         if inr low high g then (let '(o, k, d) := c in (o, k, zeroD)) else c else h g).
    assert (E1 : (if pass <=? 0 then
             match each_bin (fun c : tcell => let '(o, k, d) := c in (zero, k, d)) (Z.to_nat (high - low)) b (tab N h) with
             | Some c => each_bin (fun c : tcell => let '(o, k, d) := c in (o, k, zeroD)) (Z.to_nat (high - low)) low c
             | None => None
             end else Some (tab N h)) = Some (tab N h1)).
    { subst h1. destruct (pass <=? 0); [|reflexivity]. rewrite each_bin_tab by lia. rewrite each_bin_tab by lia.
      rewrite !E, El. reflexivity. }
    unfold AccumModel.tcell in *. rewrite E1. rewrite each_row_tab by lia.
    set (h2 := fun g : Z => if inr low high g then fold_left (t_step t) (group_vals rows g) (h1 g) else h1 g).
    pose (h3 := fun g => if inr low high g then (if high - low <? Z.of_nat (length rows) then t_copy t (h2 g) else fold_left (fun c _ => t_copy t c) (group_vals rows g) (h2 g)) else h2 g).
    assert (E3 : (if high - low <? Z.of_nat (length rows) then each_bin (t_copy t) (Z.to_nat (high - low)) low (tab N h2)
                   else each_row (fun c _ => t_copy t c) low high rows (tab N h2)) = Some (tab N h3)).
    { subst h3. destruct (high - low <? _); [rewrite each_bin_tab by lia; rewrite E, El | rewrite each_row_tab by lia]; reflexivity. }
    match goal with |- exists h', match ?X with Some _ => _ | None => _ end = _ /\ _ =>
      replace X with (Some (tab N h3)) by (symmetry; exact E3) end.
    exists (fun g => if pass <? 0 then if inr low high g then t_finish t (h3 g) else h3 g else h3 g). split.
    - destruct (pass <? 0); [rewrite each_bin_tab by lia; rewrite E, El|]; reflexivity.
    - intros g Hg. unfold tbin. fold b. subst h3 h2 h1. cbv beta. rewrite !(proj2 (inr_true low high g)) by auto.
      destruct (h g) as [[o k] d]. destruct (pass <=? 0), (inr b (b + (high - low)) g); reflexivity.
  Qed.

  Lemma copy_row_many (f : tcell -> tcell) (vals : list T) : (forall c, f (f c) = f c) -> forall c,
    fold_left (fun c _ => f c) vals c = match vals with [] => c | _ => f c end.
  Proof.
    intros Hf. induction vals as [|v vals IH]; intros c; auto. cbn [fold_left]. rewrite IH. destruct vals; auto.
  Qed.

  Let totD := fold_left (fun s x => addD s (convD x)).
  Notation SF := (AccumSumFloat okT uinv convD castf addD).
  Notation NSF := (AccumNanSumFloat okT convD castf addD).
  Notation MF := (AccumMeanFloat okT uinv invD convD castf addD divD).
  Notation NMF := (AccumNanMeanFloat okT uinv convD castf addD divD).

  Lemma sumf_bad vals o d : fold_left (t_step SF) vals (o, -1, d) = (o, -1, d).
  Proof. induction vals; simpl; auto. Qed.
  Lemma sumf_fold vals o : forall d, exists d', fold_left (t_step SF) vals (o, 0, d) = if forallb okT vals then (o, 0, totD vals d) else (o, -1, d').
  Proof.
    induction vals as [|x vals IH]; intros d; [now exists d|]. cbn [fold_left forallb].
    change (t_step SF (o, 0, d) x) with (if okT x then (o, 0, addD d (convD x)) else (o, -1, d)).
    destruct (okT x); cbn [andb]; [apply IH|]. rewrite sumf_bad. now exists d.
  Qed.
  Lemma nansumf_fold vals o k : forall d, fold_left (t_step NSF) vals (o, k, d) = (o, k, totD (filter okT vals) d).
  Proof.
    induction vals as [|x vals IH]; intros d; auto. cbn [fold_left filter].
    change (t_step NSF (o, k, d) x) with (if okT x then (o, k, addD d (convD x)) else (o, k, d)). destruct (okT x); apply IH.
  Qed.
  Lemma meanf_bad vals o d : fold_left (t_step MF) vals (o, -1, d) = (o, -1, d).
  Proof. induction vals; simpl; auto. Qed.
  Lemma meanf_fold vals o : forall k d, 0 <= k -> exists d', fold_left (t_step MF) vals (o, k, d) =
    if forallb okT vals then (o, k + Z.of_nat (length vals), totD vals d) else (o, -1, d').
  Proof using.
    induction vals as [|x vals IH]; intros k d Hk.
    - exists d. unfold totD. cbn [fold_left forallb length]. change (Z.of_nat 0) with 0. rewrite Z.add_0_r. reflexivity.
    - cbn [fold_left forallb].
      replace (t_step MF (o, k, d) x) with (if negb (okT x) then (o, -1, invD) else (o, k + 1, addD d (convD x)))
        by (cbn [t_step AccumMeanFloat]; now rewrite (proj2 (Z.leb_le _ _)) by lia).
      destruct (okT x); cbn [andb negb].
      + destruct (IH (k + 1) (addD d (convD x))) as (d' & ->); [lia|]. exists d'. destruct (forallb okT vals); auto. unfold totD. cbn [fold_left length]. replace (k + Z.of_nat (S (length vals))) with (k + 1 + Z.of_nat (length vals)) by lia. reflexivity.
      + rewrite meanf_bad. eauto.
  Qed.
  Lemma nanmeanf_fold vals o : forall k d, fold_left (t_step NMF) vals (o, k, d) = (o, k + Z.of_nat (length (filter okT vals)), totD (filter okT vals) d).
  Proof using.
    induction vals as [|x vals IH]; intros k d.
    - unfold totD. cbn [fold_left filter length]. change (Z.of_nat 0) with 0. rewrite Z.add_0_r. reflexivity.
    - cbn [fold_left filter].
      change (t_step NMF (o, k, d) x) with (if okT x then (o, k + 1, addD d (convD x)) else (o, k, d)). destruct (okT x); rewrite IH; auto.
      unfold totD. cbn [fold_left length]. replace (k + Z.of_nat (S (length (filter okT vals)))) with (k + 1 + Z.of_nat (length (filter okT vals))) by lia. reflexivity.
  Qed.

  Lemma copy_valid_idem c : copy_valid (U:=U) (D:=D) uinv castf (copy_valid uinv castf c) = copy_valid uinv castf c.
  Proof. destruct c as [[o k] d]. reflexivity. Qed.
  Lemma copy_all_idem c : copy_all (U:=U) (D:=D) castf (copy_all castf c) = copy_all castf c.
  Proof. destruct c as [[o k] d]. reflexivity. Qed.

  Lemma out0_tab (out0 : list U) (tmp0 : list D) dU dD : length tmp0 = length out0 ->
    map (fun p => (fst p, 0, snd p)) (combine out0 tmp0) = @tab tcell (length out0) (fun g => (nth (Z.to_nat g) out0 dU, 0, nth (Z.to_nat g) tmp0 dD)).
  Proof.
    intros H. rewrite (tab_of out0 dU) at 1. rewrite (tab_of tmp0 dD) at 1. rewrite H. unfold tab. rewrite combine_maps, map_map. reflexivity.
  Qed.

  Lemma one_float (t : tmp_fun) (P : list T -> U -> Prop) low high rows out0 tmp0 :
    (forall g o d, low <= g < high -> P (group_vals rows g) (fst (fst (tbin t (-1) low high rows g (o, 0, d))))) ->
    0 <= low <= high -> high <= Z.of_nat (length out0) -> length tmp0 = length out0 ->
    exists res, GroupByOneFloat zero zeroD t low high rows out0 tmp0 = Some res /\ length res = length out0 /\ reduced P low high rows res.
  Proof using uinv.
    clear totD okT invD convD castf addD divD. intros HP H0 H1 Hl. unfold GroupByOneFloat. rewrite (out0_tab out0 tmp0 uinv zeroD Hl).
    destruct (accum_tmp_tab t (length out0) (-1) low high rows (fun g => (nth (Z.to_nat g) out0 uinv, 0, nth (Z.to_nat g) tmp0 zeroD)) H0 H1) as (h' & -> & Hh).
    cbn [option_map]. rewrite map_tab. eexists. split; [reflexivity|]. split; [apply tab_length|].
    intros g Hg. rewrite tab_nth by lia. replace (Z.of_nat (Z.to_nat g)) with g by lia. eexists. split; [reflexivity|].
    rewrite Hh by auto. auto.
  Qed.

  Lemma sumf_bin low high rows g o d : castf zeroD = zero -> low <= g < high ->
    sumf_spec okT uinv zeroD convD castf addD (group_vals rows g) (fst (fst (tbin SF (-1) low high rows g (o, 0, d)))).
  Proof using.
    clear divD. intros Hz Hg. unfold tbin. change (t_from_low SF) with true. change (-1 <=? 0) with true. change (-1 <? 0) with true. cbv iota.
    replace (low + (high - low)) with high by lia. rewrite (proj2 (inr_true low high g)) by auto. unfold sumf_spec.
    destruct (sumf_fold (group_vals rows g) zero zeroD) as (d' & E). rewrite E. cbn [t_copy t_finish AccumSumFloat].
    rewrite copy_row_many by apply copy_valid_idem.
    destruct (high - low <? _); [destruct (forallb okT _); reflexivity|].
    destruct (group_vals rows g) as [|v vals]; [cbn; auto|]. destruct (forallb okT (v :: vals)); reflexivity.
  Qed.

  Lemma meanf_bin low high rows g o d : low <= g < high ->
    meanf_spec okT uinv zeroD convD castf addD divD (group_vals rows g) (fst (fst (tbin MF (-1) low high rows g (o, 0, d)))).
  Proof.
    intros Hg. unfold tbin. change (-1 <=? 0) with true. change (-1 <? 0) with true. cbv iota. unfold meanf_spec.
    match goal with |- context [fold_left _ _ (?z, 0, zeroD)] => destruct (meanf_fold (group_vals rows g) z 0 zeroD) as (d' & E) end; [lia|]. rewrite E. cbn [t_copy t_finish AccumMeanFloat].
    rewrite copy_row_many by apply copy_valid_idem. unfold total. fold totD.
    destruct (group_vals rows g) as [|v vals].
    - destruct (high - low <? _); reflexivity.
    - destruct (forallb okT (v :: vals)); cbn [andb length Nat.eqb negb]; destruct (high - low <? _); cbn [copy_valid mean_tmp fst]; try reflexivity.
  Qed.

  Lemma nanmeanf_bin low high rows g o d : low <= g < high ->
    nanmeanf_spec okT uinv zeroD convD castf addD divD (group_vals rows g) (fst (fst (tbin NMF (-1) low high rows g (o, 0, d)))).
  Proof.
    intros Hg. unfold tbin. change (-1 <=? 0) with true. change (-1 <? 0) with true. cbv iota. unfold nanmeanf_spec, meanf_spec.
    rewrite nanmeanf_fold. cbn [t_copy t_finish AccumNanMeanFloat]. rewrite copy_row_many by apply copy_all_idem.
    rewrite forallb_filter. unfold total. fold totD.
    destruct (group_vals rows g) as [|v vals].
    - destruct (high - low <? _); reflexivity.
    - destruct (filter okT (v :: vals)); destruct (high - low <? _); reflexivity.
  Qed.

  Lemma nansumf_bin low high rows g o d : castf zeroD = zero -> low <= g < high -> low = 0 \/ high - low < Z.of_nat (length rows) ->
    nansumf_spec okT zeroD convD castf addD (group_vals rows g) (fst (fst (tbin NSF (-1) low high rows g (o, 0, d)))).
  Proof using.
    clear divD. intros Hz Hg Hor. unfold tbin. change (t_from_low NSF) with false. change (-1 <=? 0) with true. change (-1 <? 0) with true. cbv iota.
    unfold nansumf_spec. rewrite nansumf_fold. cbn [t_copy t_finish AccumNanSumFloat]. rewrite copy_row_many by apply copy_all_idem.
    unfold total. fold totD. destruct (Z.ltb_spec (high - low) (Z.of_nat (length rows))); [reflexivity|].
    destruct Hor as [->|]; [|lia]. rewrite (proj2 (inr_true _ _ _)) by lia.
    destruct (group_vals rows g) as [|v vals]; [cbn; auto|]. reflexivity.
  Qed.
End Float.
