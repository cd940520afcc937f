(** Proofs: accumulating group-by. *)
From Verif Require Import Base Mem MemLemmas Inter AccumModel AccumSpec.
Local Open Scope Z_scope.

Definition inr (low high g : Z) : bool := (low <=? g) && (g <? high).
Lemma inr_true low high g : inr low high g = true <-> low <= g < high.
Proof. unfold inr. rewrite andb_true_iff, Z.leb_le, Z.ltb_lt. tauto. Qed.
Lemma inr_false low high g : inr low high g = false <-> ~ low <= g < high.
Proof. rewrite <- inr_true. destruct (inr low high g); split; congruence. Qed.

Section Loops.
  Context {C T U : Type}.
  Implicit Types (rows : list (Z * T)).

  Lemma each_bin_tab (f : C -> C) N n : forall low (h : Z -> C), 0 <= low -> low + Z.of_nat n <= Z.of_nat N ->
    each_bin f n low (tab N h) = Some (tab N (fun g => if inr low (low + Z.of_nat n) g then f (h g) else h g)).
  Proof.
    induction n as [|n IH]; intros low h H0 H1; cbn [each_bin].
    - f_equal. apply tab_ext. intros k Hk. rewrite (proj2 (inr_false _ _ _)) by lia. reflexivity.
    - rewrite tab_zrd, tab_zwr, IH by lia. f_equal. apply tab_ext. intros k Hk.
      unfold inr. destruct (Z.eqb_spec k low) as [->|Hne].
      + replace (low + 1 <=? low) with false by lia. replace (low <=? low) with true by lia.
        replace (low <? low + Z.of_nat (S n)) with true by lia. reflexivity.
      + replace (low + 1 <=? k) with (low <=? k) by lia. replace (low + 1 + Z.of_nat n) with (low + Z.of_nat (S n)) by lia. reflexivity.
  Qed.

  Lemma each_row_tab (step : C -> T -> C) N low high rows : 0 <= low -> high <= Z.of_nat N -> forall h : Z -> C,
    each_row step low high rows (tab N h)
    = Some (tab N (fun g => if inr low high g then fold_left step (group_vals rows g) (h g) else h g)).
  Proof.
    intros H0 H1. induction rows as [|[k x] rows IH]; intros h; cbn [each_row].
    - f_equal. apply tab_ext. intros g Hg. destruct (inr low high g); reflexivity.
    - fold (inr low high k). destruct (inr low high k) eqn:E.
      + apply inr_true in E. rewrite tab_zrd, tab_zwr, IH by lia. f_equal. apply tab_ext. intros g Hg.
        unfold group_vals. cbn [filter fst]. rewrite (Z.eqb_sym k g). destruct (Z.eqb_spec g k) as [->|Hne]; auto.
        rewrite (proj2 (inr_true _ _ _)) by auto. reflexivity.
      + rewrite IH. f_equal. apply tab_ext. intros g Hg. destruct (inr low high g) eqn:Eg; auto.
        unfold group_vals. cbn [filter fst]. destruct (Z.eqb_spec k g) as [->|Hne]; auto. congruence.
  Qed.

End Loops.

Section Accum.
  Context {T U : Type}.
  Implicit Types (h : Z -> cell U) (rows : list (Z * T)).

  Lemma accum_tab (a : acc_fun T U) N pass low high rows h : 0 <= low <= high -> high <= Z.of_nat N ->
    accum a pass low high rows (tab N h) = Some (tab N (fun g =>
      if inr low high g then
        let c1 := if pass <=? 0 then a_clear a (h g) else h g in
        let c2 := fold_left (a_step a) (group_vals rows g) c1 in
        if pass <? 0 then a_finish a c2 else c2
      else h g)).
  Proof.
    intros H0 H1. unfold accum.
    assert (E : low + Z.of_nat (Z.to_nat (high - low)) = high) by lia.
    destruct (Z.leb_spec pass 0).
    - rewrite each_bin_tab by lia. rewrite E. rewrite each_row_tab by lia.
      destruct (Z.ltb_spec pass 0); [rewrite each_bin_tab by lia; rewrite E|]; f_equal; apply tab_ext; intros g Hg;
      destruct (inr low high g); reflexivity.
    - rewrite each_row_tab by lia. destruct (Z.ltb_spec pass 0); [lia|]. reflexivity.
  Qed.

  Lemma group_vals_app rows1 rows2 g : group_vals (rows1 ++ rows2) g = group_vals rows1 g ++ group_vals rows2 g.
  Proof. unfold group_vals. now rewrite filter_app, map_app. Qed.

  Lemma group_vals_concat (ls : list (list (Z * T))) g : group_vals (concat ls) g = concat (map (fun l => group_vals l g) ls).
  Proof. induction ls as [|l ls IH]; simpl; auto. now rewrite group_vals_app, IH. Qed.

  Lemma core_run_later (a : acc_fun T U) N low high : 0 <= low <= high -> high <= Z.of_nat N -> forall blocks pass h, 0 < pass ->
    core_run (fun p rows cells => accum a p low high rows cells) pass blocks (tab N h)
    = Some (tab N (fun g => if inr low high g then fold_left (a_step a) (group_vals (concat blocks) g) (h g) else h g)).
  Proof.
    intros H0 H1. induction blocks as [|b bs IH]; intros pass h Hp; cbn [core_run].
    - f_equal. apply tab_ext. intros g Hg. now destruct (inr low high g).
    - rewrite accum_tab by auto. rewrite IH by lia. f_equal. apply tab_ext. intros g Hg. destruct (inr low high g) eqn:E; auto.
      rewrite (proj2 (Z.leb_gt pass 0)), (proj2 (Z.ltb_ge pass 0)) by lia. cbn [concat]. rewrite group_vals_app, fold_left_app. reflexivity.
  Qed.

  Lemma core_run_tab (a : acc_fun T U) N low high blocks h : 0 <= low <= high -> high <= Z.of_nat N ->
    core_run (fun p rows cells => accum a p low high rows cells) 0 blocks (tab N h)
    = Some (tab N (fun g => if inr low high g then
        match blocks with [] => h g | _ => fold_left (a_step a) (group_vals (concat blocks) g) (a_clear a (h g)) end else h g)).
  Proof.
    intros H0 H1. destruct blocks as [|b bs]; cbn [core_run].
    - f_equal. apply tab_ext. intros g Hg. now destruct (inr low high g).
    - rewrite accum_tab by auto. rewrite core_run_later by lia. f_equal. apply tab_ext. intros g Hg.
      destruct (inr low high g) eqn:E; auto. change (0 <=? 0) with true. change (0 <? 0) with false. cbn [concat].
      rewrite group_vals_app, fold_left_app. reflexivity.
  Qed.
End Accum.

Lemma map_pair_tab {U} (out0 : list U) d : map (fun x => (x, 0)) out0 = @tab (cell U) (length out0) (fun g => (nth (Z.to_nat g) out0 d, 0)).
Proof. rewrite (tab_of out0 d) at 1. now rewrite map_tab. Qed.

Section One.
  Context {T U : Type} (uinv : U).
  Lemma group_by_one (a : acc_fun T U) (P : list T -> U -> Prop) low high (rows : list (Z * T)) out0 :
    (forall c, snd (a_clear a c) = snd c) ->
    (forall vals x, P vals (fst (a_finish a (fold_left (a_step a) vals (a_clear a (x, 0)))))) ->
    0 <= low <= high -> high <= Z.of_nat (length out0) ->
    exists res, GroupByOne a low high rows out0 = Some res /\ length res = length out0 /\
      reduced P low high rows res /\ outside_kept low high out0 res.
  Proof using uinv.
    intros _ HP H0 H1. unfold GroupByOne. rewrite (map_pair_tab out0 uinv), accum_tab by auto. cbn [option_map]. rewrite map_tab.
    eexists. split; [reflexivity|]. split; [apply tab_length|]. split.
    - intros g Hg. rewrite tab_nth by lia. eexists. split; [reflexivity|].
      replace (Z.of_nat (Z.to_nat g)) with g by lia. rewrite (proj2 (inr_true _ _ _)) by auto. cbn -[fold_left]. apply HP.
    - intros g Hg. destruct (Nat.lt_ge_cases g (length out0)) as [Hl|Hl].
      + rewrite tab_nth by auto. rewrite (proj2 (inr_false _ _ _)) by auto. cbn [fst]. rewrite Nat2Z.id.
        symmetry. now apply nth_error_nth'.
      + rewrite !nth_error_ge; auto. now rewrite tab_length.
  Qed.
End One.

(** ** One bin, all rows *)
Section Bin.
  Context {T U : Type} (okT : T -> bool) (okU : U -> bool) (uinv zero : U) (conv : T -> U)
          (add : U -> U -> U) (div : U -> Z -> U) (lt : U -> U -> bool).
  Let tot := fold_left (fun s x => add s (conv x)).

  Notation SumStep := (a_step (AccumSum okT uinv zero conv add)).
  Lemma sum_bad vals o : fold_left SumStep vals (o, -1) = (o, -1).
  Proof. induction vals; simpl; auto. Qed.
  Lemma sum_fold vals : forall o, fold_left SumStep vals (o, 0) = if forallb okT vals then (tot vals o, 0) else (uinv, -1).
  Proof.
    induction vals as [|x vals IH]; intros o; simpl; auto. destruct (okT x); simpl; [apply IH | apply sum_bad].
  Qed.

  Notation NanSumStep := (a_step (AccumNanSum okT zero conv add)).
  Lemma nansum_fold vals n : forall o, fold_left NanSumStep vals (o, n) = (tot (filter okT vals) o, n).
  Proof. induction vals as [|x vals IH]; intros o; simpl; auto. destruct (okT x); simpl; apply IH. Qed.

  Notation MeanStep := (a_step (AccumMean okT uinv zero conv add div)).
  Lemma mean_bad vals o : fold_left MeanStep vals (o, -1) = (o, -1).
  Proof. induction vals; simpl; auto. Qed.
  Lemma mean_fold vals : forall o n, 0 <= n ->
    fold_left MeanStep vals (o, n) = if forallb okT vals then (tot vals o, n + Z.of_nat (length vals)) else (uinv, -1).
  Proof using.
    clear okU lt. induction vals as [|x vals IH]; intros o n Hn; cbn [fold_left forallb].
    - unfold tot. simpl. f_equal. lia.
    - cbn [a_step AccumMean]. rewrite (proj2 (Z.leb_le _ _)) by lia. destruct (okT x); cbn [negb andb].
      + rewrite IH by lia. destruct (forallb okT vals); auto. f_equal. cbn [length]. lia.
      + apply mean_bad.
  Qed.

  Notation NanMeanStep := (a_step (AccumNanMean okT uinv zero conv add div)).
  Lemma nanmean_fold vals : forall o n,
    fold_left NanMeanStep vals (o, n) = (tot (filter okT vals) o, n + Z.of_nat (length (filter okT vals))).
  Proof using.
    clear okU lt. induction vals as [|x vals IH]; intros o n; cbn [fold_left filter].
    - unfold tot. simpl. f_equal. lia.
    - cbn [a_step AccumNanMean]. destruct (okT x); rewrite IH; auto. unfold tot. simpl. f_equal. lia.
  Qed.

  (* min: keep the smaller *)
  Fixpoint lmin (l : list T) (m : U) : U := match l with [] => m | x :: t => lmin t (if lt (conv x) m then conv x else m) end.

  Notation MinStep := (a_step (AccumMin okT uinv conv lt)).
  Lemma min_bad vals o : fold_left MinStep vals (o, -1) = (o, -1).
  Proof. induction vals; simpl; auto. Qed.
  Lemma min_fold1 vals : forall o, fold_left MinStep vals (o, 1) = if forallb okT vals then (lmin vals o, 1) else (uinv, -1).
  Proof.
    induction vals as [|x vals IH]; intros o; cbn [fold_left forallb lmin]; auto.
    cbn [a_step AccumMin]. change (0 <=? 1) with true. change (1 =? 0) with false. cbv iota.
    destruct (okT x); cbn [negb andb]; [|apply min_bad]. destruct (lt (conv x) o); apply IH.
  Qed.
  Lemma min_fold vals o : fold_left MinStep vals (o, 0) =
    if forallb okT vals then match vals with [] => (o, 0) | x :: t => (lmin t (conv x), 1) end else (uinv, -1).
  Proof.
    destruct vals as [|x vals]; auto. cbn [fold_left forallb]. cbn [a_step AccumMin].
    change (0 <=? 0) with true. change (0 =? 0) with true. cbv iota.
    destruct (okT x); cbn [negb andb]; [|apply min_bad]. rewrite min_fold1. reflexivity.
  Qed.

  Notation NanMinStep := (a_step (AccumNanMin okT okU uinv conv lt)).
  Lemma nanmin_fold vals n : (forall x, okT x = true -> okU (conv x) = true) -> okU uinv = false -> forall o,
    fold_left NanMinStep vals (o, n) =
    match filter okT vals with
    | [] => (o, n)
    | x :: t => if okU o then (lmin (x :: t) o, n) else (lmin t (conv x), n)
    end.
  Proof.
    intros Hc Hi. induction vals as [|x vals IH]; intros o; cbn [fold_left filter]; auto.
    cbn [a_step AccumNanMin]. destruct (okT x) eqn:Ex; [|apply IH].
    destruct (okU o) eqn:Eo; cbn [negb orb lmin].
    - destruct (lt (conv x) o); rewrite IH; rewrite ?(Hc x Ex), ?Eo; destruct (filter okT vals); reflexivity.
    - rewrite IH, (Hc x Ex). destruct (filter okT vals); reflexivity.
  Qed.

  Lemma lmin_ok l : (forall x, okT x = true -> okU (conv x) = true) -> forall m, forallb okT l = true -> okU m = true -> okU (lmin l m) = true.
  Proof.
    intros Hc. induction l as [|x l IH]; intros m Hl Hm; simpl; auto. simpl in Hl. apply andb_prop in Hl as [Hx Hl].
    apply IH; auto. destruct (lt (conv x) m); auto.
  Qed.

  Lemma least_choose V m d W : order_ok okU lt -> (forall y, In y (V ++ W) -> okU y = true) ->
    least lt V m -> least lt W d -> least lt (V ++ W) (if lt d m then d else m).
  Proof.
    intros (Ir & Tr & Nt) Hok [Im Hm] [Id Hd].
    assert (Om : okU m = true) by (apply Hok, in_or_app; auto). assert (Od : okU d = true) by (apply Hok, in_or_app; auto).
    destruct (lt d m) eqn:E; split; try (apply in_or_app; auto); intros y Hy; pose proof (Hok y Hy) as Oy; apply in_app_or in Hy as [Hy|Hy]; auto.
    - destruct (lt y d) eqn:Ey; auto. rewrite <- (Hm y Hy). symmetry. eapply Tr; eauto.
    - apply (Nt y d m); auto.
  Qed.

  Lemma least_one m : order_ok okU lt -> least lt [m] m.
  Proof. intros (Ir & _). split; [simpl; auto|]. intros y [->|[]]. apply Ir. Qed.

  Lemma lmin_least l : order_ok okU lt -> (forall x, okT x = true -> okU (conv x) = true) ->
    forall V m, (forall y, In y V -> okU y = true) -> forallb okT l = true -> least lt V m -> least lt (V ++ map conv l) (lmin l m).
  Proof.
    intros Ho Hc. induction l as [|x l IH]; intros V m HV Hl Hm; cbn [lmin map].
    - now rewrite app_nil_r.
    - simpl in Hl. apply andb_prop in Hl as [Hx Hl].
      replace (V ++ conv x :: map conv l) with ((V ++ [conv x]) ++ map conv l) by (now rewrite <- app_assoc).
      assert (HV2 : forall y, In y (V ++ [conv x]) -> okU y = true).
      { intros y Hy. apply in_app_or in Hy as [Hy|[<-|[]]]; auto. }
      apply IH; auto. apply least_choose; auto. apply least_one; auto.
  Qed.

  Lemma lmin_least1 x l : order_ok okU lt -> (forall x, okT x = true -> okU (conv x) = true) ->
    forallb okT (x :: l) = true -> least lt (map conv (x :: l)) (lmin l (conv x)).
  Proof.
    intros Ho Hc Hl. simpl in Hl. apply andb_prop in Hl as [Hx Hl].
    apply (lmin_least l Ho Hc [conv x]); auto.
    - intros y [<-|[]]. auto.
    - apply least_one; auto.
  Qed.

  Lemma forallb_filter vals : forallb okT (filter okT vals) = true.
  Proof. induction vals as [|x vals IH]; simpl; auto. destruct (okT x) eqn:E; simpl; rewrite ?E; auto. Qed.
End Bin.
