(** Proofs: scatter and gather of the accumulating group-by. *)
From Verif Require Import Base Mem MemLemmas Inter AccumModel AccumSpec AccumProofs.
Local Open Scope Z_scope.

Lemma combine_maps {A B C} (f : A -> B) (g : A -> C) l : combine (map f l) (map g l) = map (fun x => (f x, g x)) l.
Proof. induction l; simpl; congruence. Qed.

Section Gather.
  Context {T U : Type}.
  Notation gcell := (@gcell U).

  Lemma gather_bins_tab (step : bool -> gcell -> cell U -> gcell) first N (cr : Z -> cell U) n : forall low (h : Z -> gcell),
    0 <= low -> low + Z.of_nat n <= Z.of_nat N ->
    gather_bins step first n low (tab N cr) (tab N h)
    = Some (tab N (fun g => if inr low (low + Z.of_nat n) g
                            then step first (h g) (fst (cr g), if first then snd (fst (h g)) else snd (cr g)) else h g)).
  Proof.
    induction n as [|n IH]; intros low h H0 H1; cbn [gather_bins].
    - f_equal. apply tab_ext. intros k Hk. rewrite (proj2 (inr_false _ _ _)) by lia. reflexivity.
    - rewrite !tab_zrd by lia. destruct (h low) as [[o iv] t] eqn:Eh. destruct (cr low) as [d c] eqn:Ec.
      rewrite tab_zwr, IH by lia. f_equal. apply tab_ext. intros k Hk.
      unfold inr. destruct (Z.eqb_spec k low) as [->|Hne].
      + replace (low + 1 <=? low) with false by lia. replace (low <=? low) with true by lia.
        replace (low <? low + Z.of_nat (S n)) with true by lia. cbn [andb]. rewrite Eh, Ec. reflexivity.
      + replace (low + 1 <=? k) with (low <=? k) by lia. replace (low + 1 + Z.of_nat n) with (low + Z.of_nat (S n)) by lia. reflexivity.
  Qed.

  (* what one bin sees *)
  Fixpoint gfold (step : bool -> gcell -> cell U -> gcell) (first : bool) (cs : list (bool * cell U)) (s : gcell) : gcell :=
    match cs with
    | [] => s
    | (did, c) :: cs' => gfold step false cs' (if did : bool then step first s (fst c, if first then snd (fst s) else snd c) else s)
    end.

  Definition at_bin (g : Z) (cs : list (bool * (Z -> cell U))) : list (bool * cell U) := map (fun p => (fst p, snd p g)) cs.

  Lemma gather_cores_tab (step : bool -> gcell -> cell U -> gcell) N low high : 0 <= low <= high -> high <= Z.of_nat N ->
    forall cs first (h : Z -> gcell),
    gather_cores step first low high (map (fun p => (fst p, tab N (snd p))) cs) (tab N h)
    = Some (tab N (fun g => if inr low high g then gfold step first (at_bin g cs) (h g) else h g)).
  Proof.
    intros H0 H1. induction cs as [|[did cr] cs IH]; intros first h; cbn [gather_cores map fst snd at_bin gfold].
    - f_equal. apply tab_ext. intros g Hg. now destruct (inr low high g).
    - destruct did.
      + rewrite gather_bins_tab by lia. replace (low + Z.of_nat (Z.to_nat (high - low))) with high by lia.
        rewrite IH. f_equal. apply tab_ext. intros g Hg. destruct (inr low high g); reflexivity.
      + rewrite IH. f_equal.
  Qed.

  (* the values a core adds to a bin *)
  Definition core_vals (v : option (list T)) : list T := match v with Some l => l | None => [] end.
  Definition core_cell (a : acc_fun T U) (v : option (list T)) (p : bool * cell U) : Prop :=
    exists x, p = match v with None => (false, (x, 0)) | Some vals => (true, fold_left (a_step a) vals (a_clear a (x, 0))) end.

  Definition vals_at (g : Z) (blocks : list (list (Z * T))) : option (list T) :=
    match blocks with [] => None | _ => Some (group_vals (concat blocks) g) end.

  Lemma scatter_tab (a : acc_fun T U) N low high (d : U) : 0 <= low <= high -> high <= Z.of_nat N ->
    forall asg junks, length junks = length asg -> Forall (fun j => length j = N) junks ->
    exists cs : list (bool * (Z -> cell U)),
      scatter (fun pass rows cells => accum a pass low high rows cells) asg junks = Some (map (fun p => (fst p, tab N (snd p))) cs) /\
      length cs = length asg /\
      forall g, low <= g < high -> Forall2 (core_cell a) (map (vals_at g) asg) (at_bin g cs).
  Proof.
    intros H0 H1. induction asg as [|blocks asg IH]; intros [|junk junks] Hl Hj; try discriminate.
    - exists []. repeat split. constructor.
    - inversion Hj as [|? ? Hjk Hjs]; subst. cbn [scatter]. rewrite (map_pair_tab junk d), core_run_tab by auto.
      destruct (IH junks) as (cs & -> & Hlen & Hcs); auto.
      eexists ((_, _) :: cs). split; [cbn [map fst snd]; reflexivity|]. split; [cbn [length]; lia|].
      intros g Hg. cbn [map at_bin fst snd]. constructor; [|apply (Hcs g Hg)].
      rewrite (proj2 (inr_true _ _ _)) by auto. unfold core_cell. exists (nth (Z.to_nat g) junk d).
      destruct blocks; reflexivity.
  Qed.

  Lemma gather_tab (gf : @gather_fun U) (uinv : U) low high N cs (d : U) out0 : 0 <= low <= high -> high <= Z.of_nat N ->
    length out0 = N -> cs <> [] ->
    exists res, gather uinv gf low high (map (fun p => (fst p, tab N (snd p))) cs) out0 = Some res /\ length res = N /\
      forall g, low <= g < high -> nth_error res (Z.to_nat g) = Some
        (g_finish gf (gfold (g_step gf) true (at_bin g cs)
           (match g_fill gf with Some z => z | None => uinv end, match at_bin g cs with (_, c) :: _ => snd c | [] => 0 end, 0))).
  Proof.
    intros H0 H1 HN Hcs. unfold gather. destruct cs as [|[did cr] cs]; [congruence|]. cbn [map fst snd].
    set (fillv := fun x : U => match g_fill gf with Some z => z | None => x end).
    assert (Hstart : map (fun p => (match g_fill gf with Some z => z | None => fst p end, snd p, 0)) (combine out0 (map snd (tab N cr)))
                     = @tab gcell N (fun g => (fillv (nth (Z.to_nat g) out0 d), snd (cr g), 0))).
    { rewrite map_tab. rewrite (tab_of out0 d), HN at 1. unfold tab.
      rewrite combine_maps, map_map. reflexivity. }
    rewrite Hstart. clear Hstart.
    assert (Hout : map (fun x : U => (x, 0)) out0 = @tab (cell U) N (fun g => (nth (Z.to_nat g) out0 d, 0))).
    { rewrite (map_pair_tab out0 d), HN. reflexivity. }
    assert (Hn : low + Z.of_nat (Z.to_nat (high - low)) = high) by lia.
    set (h1 := fun g => (if inr low high g then match g_fill gf with Some z => z | None => uinv end else fillv (nth (Z.to_nat g) out0 d), snd (cr g), 0)).
    assert (E1 : match g_fill gf with
       | Some _ => Some (tab N (fun g : Z => (fillv (nth (Z.to_nat g) out0 d), snd (cr g), 0)))
       | None => gather_bins (fun (_ : bool) (s : gcell) (_ : cell U) => let '(_, iv, t) := s in (uinv, iv, t)) false
            (Z.to_nat (high - low)) low (map (fun x : U => (x, 0)) out0) (tab N (fun g : Z => (fillv (nth (Z.to_nat g) out0 d), snd (cr g), 0)))
       end = Some (tab N h1)).
    { subst fillv h1. destruct (g_fill gf).
      - f_equal. apply tab_ext. intros g Hg. now destruct (inr low high g).
      - rewrite Hout, gather_bins_tab by lia. rewrite Hn. f_equal. apply tab_ext. intros g Hg. now destruct (inr low high g). }
    unfold AccumModel.gcell, cell in *. rewrite E1. clear E1.
    change (U * Z)%type with (cell U) in *. change (cell U * Z)%type with gcell in *.
    change ((did, tab N cr) :: map (fun p => (fst p, tab N (snd p))) cs) with (map (fun p : bool * (Z -> cell U) => (fst p, tab N (snd p))) ((did, cr) :: cs)).
    rewrite gather_cores_tab by auto. rewrite Hout, gather_bins_tab by lia. rewrite Hn, map_tab.
    eexists. split; [reflexivity|]. split; [apply tab_length|]. intros g Hg. rewrite tab_nth by lia.
    replace (Z.of_nat (Z.to_nat g)) with g by lia. rewrite !(proj2 (inr_true _ _ _)) by auto.
    subst h1. cbv beta. rewrite !(proj2 (inr_true _ _ _)) by auto. cbn [at_bin map fst snd].
    destruct (gfold (g_step gf) true _ _) as [[o iv] t]. reflexivity.
  Qed.
End Gather.

Section Ops.
  Context {T U : Type} (okT : T -> bool) (okU : U -> bool) (uinv zero : U) (conv : T -> U)
          (add : U -> U -> U) (div : U -> Z -> U) (lt : U -> U -> bool).
  Notation gcell := (@gcell U).

  Lemma gather_inv (a : acc_fun T U) (step : bool -> gcell -> cell U -> gcell) (G : list T -> gcell -> Prop) :
    (forall V s vals x, G V s -> G (V ++ vals) (step false s (fold_left (a_step a) vals (a_clear a (x, 0))))) ->
    forall vs cs, Forall2 (core_cell a) vs cs -> forall V s, G V s -> G (V ++ concat (map core_vals vs)) (gfold step false cs s).
  Proof.
    intros Hs vs cs F. induction F as [|v [did c] vs cs [x Hx] F IH]; intros V s HG; cbn [map concat gfold].
    - now rewrite app_nil_r.
    - rewrite app_assoc. destruct v as [vals|]; injection Hx as -> ->; cbn [core_vals].
      + apply IH. rewrite <- surjective_pairing. now apply Hs.
      + rewrite app_nil_r. now apply IH.
  Qed.

  Lemma gather_inv_first (a : acc_fun T U) (step : bool -> gcell -> cell U -> gcell) (G : list T -> gcell -> Prop) fillv :
    G [] (fillv, 0, 0) ->
    (forall vals x, let c := fold_left (a_step a) vals (a_clear a (x, 0)) in G vals (step true (fillv, snd c, 0) c)) ->
    (forall V s vals x, G V s -> G (V ++ vals) (step false s (fold_left (a_step a) vals (a_clear a (x, 0))))) ->
    forall vs cs, Forall2 (core_cell a) vs cs ->
    G (concat (map core_vals vs)) (gfold step true cs (fillv, match cs with (_, c) :: _ => snd c | [] => 0 end, 0)).
  Proof.
    intros H0 H1 Hs vs cs F. destruct F as [|v [did c] vs cs [x Hx] F]; auto. cbn [map concat gfold].
    apply (gather_inv a step G Hs vs cs F). destruct v as [vals|]; injection Hx as -> ->; cbn [core_vals fst snd].
    - rewrite <- surjective_pairing. apply (H1 vals x).
    - exact H0.
  Qed.

  Let tot := fold_left (fun s x => add s (conv x)).
  Lemma tot_app V W o : tot (V ++ W) o = tot W (tot V o).
  Proof. apply fold_left_app. Qed.
  Lemma tot_pull W : exact_add zero add -> forall a b, add a (tot W b) = tot W (add a b).
  Proof.
    intros (Hc & Ha & Hz). induction W as [|w W IH]; intros a b; simpl; auto. rewrite IH. f_equal. now rewrite Ha.
  Qed.
  Lemma tot_zero V : exact_add zero add -> add (tot V zero) zero = tot V zero.
  Proof. intros H. pose proof H as (Hc & Ha & Hz). rewrite Hc, tot_pull, Hz by auto. reflexivity. Qed.
  Lemma tot_add V W : exact_add zero add -> add (tot V zero) (tot W zero) = tot (V ++ W) zero.
  Proof. intros H. now rewrite tot_pull, tot_zero, tot_app by auto. Qed.

  Lemma tot_perm V W : exact_add zero add -> Permutation V W -> forall o, tot V o = tot W o.
  Proof.
    intros (Hc & Ha & Hz) P. induction P as [|x V W P IH|x y V|V W X P1 IH1 P2 IH2]; intros o; simpl; auto.
    - f_equal. rewrite !Ha. f_equal. apply Hc.
    - now rewrite IH1.
  Qed.

  Lemma forallb_perm V W : Permutation V W -> forallb okT V = forallb okT W.
  Proof.
    intros P. induction P; simpl; auto; try congruence. now rewrite !andb_assoc, (andb_comm (okT y)).
  Qed.
  Lemma filter_perm V W : Permutation V W -> Permutation (filter okT V) (filter okT W).
  Proof.
    intros P. induction P; simpl; auto.
    - destruct (okT x); auto.
    - destruct (okT x), (okT y); auto. constructor.
    - etransitivity; eauto.
  Qed.

  (* sum *)
  Definition sum_good (V : list T) (s : gcell) : Prop :=
    let '(o, iv, t) := s in if forallb okT V then o = tot V zero /\ iv <> -1 else o = uinv /\ iv = -1.

  Lemma gather_sum vs cs : exact_add zero add -> Forall2 (core_cell (AccumSum okT uinv zero conv add)) vs cs ->
    sum_spec okT uinv zero conv add (concat (map core_vals vs))
      (g_finish (GatherSum uinv zero add) (gfold (g_step (GatherSum uinv zero add)) true cs (zero, match cs with (_, c) :: _ => snd c | [] => 0 end, 0))).
  Proof.
    clear okU div lt.
    intros Hx F. pose proof (gather_inv_first (AccumSum okT uinv zero conv add) (g_step (GatherSum uinv zero add)) sum_good zero) as I.
    assert (Hg : sum_good (concat (map core_vals vs)) (gfold (g_step (GatherSum uinv zero add)) true cs (zero, match cs with (_, c) :: _ => snd c | [] => 0 end, 0))).
    { apply I; auto.
      - split; [reflexivity|lia].
      - intros vals x. change (a_clear _ (x, 0)) with (zero, 0). cbv zeta. rewrite sum_fold. unfold sum_good.
        destruct (forallb okT vals); cbn; [split; [|lia] | auto].
        destruct Hx as (Hc & Ha & Hz). rewrite Hc. rewrite (Hc _ zero). rewrite tot_pull, Hz; [reflexivity|repeat split; auto].
      - intros V [[o iv] t] vals x. unfold sum_good. change (a_clear _ (x, 0)) with (zero, 0). rewrite sum_fold, forallb_app.
        destruct (forallb okT V); cbn [andb]; intros [-> Hi]; cbn [g_step GatherSum].
        + rewrite (proj2 (Z.eqb_neq iv (-1))) by auto. destruct (forallb okT vals); cbn; auto. split; auto. now apply tot_add.
        + subst iv. destruct (forallb okT vals); cbn; auto. }
    destruct (gfold _ _ _ _) as [[o iv] t]. cbn [g_finish GatherSum fst]. clear I. unfold sum_spec, sum_good in *.
    destruct (forallb okT (concat (map core_vals vs))); apply Hg.
  Qed.

  (* nansum *)
  Lemma gather_nansum vs cs : exact_add zero add -> Forall2 (core_cell (AccumNanSum okT zero conv add)) vs cs ->
    nansum_spec okT zero conv add (concat (map core_vals vs))
      (g_finish (GatherNanSum zero add) (gfold (g_step (GatherNanSum zero add)) true cs (zero, match cs with (_, c) :: _ => snd c | [] => 0 end, 0))).
  Proof.
    clear okU div lt.
    intros Hx F.
    pose (G := fun (V : list T) (s : gcell) => fst (fst s) = tot (filter okT V) zero).
    assert (Hg : G (concat (map core_vals vs)) (gfold (g_step (GatherNanSum zero add)) true cs (zero, match cs with (_, c) :: _ => snd c | [] => 0 end, 0))).
    { apply (gather_inv_first (AccumNanSum okT zero conv add)); auto.
      - reflexivity.
      - intros vals x. change (a_clear _ (x, 0)) with (zero, 0). cbv zeta. rewrite nansum_fold. unfold G. cbn.
        rewrite tot_pull by auto. destruct Hx as (Hc & Ha & Hz). now rewrite Hz.
      - intros V [[o iv] t] vals x. unfold G. cbn [fst snd]. change (a_clear _ (x, 0)) with (zero, 0). intros ->. rewrite nansum_fold, filter_app. cbn. now apply tot_add. }
    exact Hg.
  Qed.

  (* mean *)
  Definition mean_good (V : list T) (s : gcell) : Prop :=
    let '(o, iv, t) := s in if forallb okT V then o = tot V zero /\ 0 <= iv /\ t = Z.of_nat (length V) else o = uinv /\ iv = -1.

  Lemma gather_mean vs cs : exact_add zero add -> okU uinv = false -> (forall s n, okU s = false -> div s n = uinv) ->
    Forall2 (core_cell (AccumMean okT uinv zero conv add div)) vs cs ->
    mean_spec okT uinv zero conv add div (concat (map core_vals vs))
      (g_finish (GatherMean okU uinv zero add div) (gfold (g_step (GatherMean okU uinv zero add div)) true cs (zero, match cs with (_, c) :: _ => snd c | [] => 0 end, 0))).
  Proof.
    clear lt.
    intros Hx Hi Hd F.
    assert (Hg : mean_good (concat (map core_vals vs)) (gfold (g_step (GatherMean okU uinv zero add div)) true cs (zero, match cs with (_, c) :: _ => snd c | [] => 0 end, 0))).
    { apply (gather_inv_first (AccumMean okT uinv zero conv add div)); auto.
      - unfold mean_good. cbn. repeat split; lia.
      - intros vals x. change (a_clear _ (x, 0)) with (zero, 0). cbv zeta. rewrite mean_fold by apply Z.le_refl. unfold mean_good.
        destruct (forallb okT vals) eqn:Ev; [|cbn; auto]. cbn [snd g_step GatherMean].
        rewrite (proj2 (Z.eqb_neq _ (-1))) by lia. rewrite ?Ev. repeat split; try lia.
        rewrite tot_pull by auto. destruct Hx as (Hc & Ha & Hz). now rewrite Hz.
      - intros V [[o iv] t] vals x. unfold mean_good. change (a_clear _ (x, 0)) with (zero, 0). rewrite mean_fold, forallb_app by apply Z.le_refl.
        destruct (forallb okT V) eqn:EV; cbn [andb g_step GatherMean].
        + intros (-> & Hiv & ->). rewrite (proj2 (Z.eqb_neq iv (-1))) by lia.
          destruct (forallb okT vals) eqn:Ev; [|cbn; auto].
          rewrite (proj2 (Z.eqb_neq _ (-1))) by lia. rewrite app_length. repeat split; try lia. now apply tot_add.
        + intros [-> ->]. destruct (forallb okT vals); cbn; auto. }
    destruct (gfold _ _ _ _) as [[o iv] t]. cbn [g_finish GatherMean]. unfold mean_spec, mean_good in *.
    destruct (forallb okT (concat (map core_vals vs))); cbn [andb].
    - destruct Hg as (-> & _ & ->). destruct (length _); cbn [negb Nat.eqb]; auto.
      replace (0 <? Z.of_nat (S n)) with true by lia. cbn [andb]. fold tot. unfold total. fold tot.
      destruct (okU (tot _ zero)) eqn:Eu; auto. symmetry. auto.
    - destruct Hg as [-> _]. now rewrite Hi, andb_false_r.
  Qed.

  (* nanmean *)
  Lemma gather_nanmean vs cs : exact_add zero add ->
    Forall2 (core_cell (AccumNanMean okT uinv zero conv add div)) vs cs ->
    nanmean_spec okT uinv zero conv add div (concat (map core_vals vs))
      (g_finish (GatherNanMean uinv zero add div) (gfold (g_step (GatherNanMean uinv zero add div)) true cs (zero, match cs with (_, c) :: _ => snd c | [] => 0 end, 0))).
  Proof.
    clear okU lt.
    intros Hx F.
    pose (G := fun (V : list T) (s : gcell) => fst (fst s) = tot (filter okT V) zero /\ snd s = Z.of_nat (length (filter okT V))).
    assert (Hg : G (concat (map core_vals vs)) (gfold (g_step (GatherNanMean uinv zero add div)) true cs (zero, match cs with (_, c) :: _ => snd c | [] => 0 end, 0))).
    { apply (gather_inv_first (AccumNanMean okT uinv zero conv add div)); auto.
      - split; reflexivity.
      - intros vals x. change (a_clear _ (x, 0)) with (zero, 0). cbv zeta. rewrite nanmean_fold. unfold G. cbn -[Z.add]. split; [|lia].
        rewrite tot_pull by auto. destruct Hx as (Hc & Ha & Hz). now rewrite Hz.
      - intros V [[o iv] t] vals x. unfold G. cbn [fst snd]. change (a_clear _ (x, 0)) with (zero, 0). intros [-> ->].
        rewrite nanmean_fold, filter_app, app_length. cbn -[Z.add Z.of_nat]. split; [now apply tot_add|lia]. }
    destruct (gfold _ _ _ _) as [[o iv] t]. cbn [g_finish GatherNanMean]. unfold nanmean_spec, mean_spec. destruct Hg as [Ho Ht]. cbn [fst snd] in *. subst o t.
    rewrite forallb_filter. cbn [andb]. destruct (length _); cbn [negb Nat.eqb]; auto.
  Qed.

  (* min *)
  Definition min_good (V : list T) (s : gcell) : Prop :=
    let '(o, iv, t) := s in
    if forallb okT V then iv <> -1 /\ match V with [] => o = uinv | _ => least lt (map conv V) o /\ okU o = true end
    else o = uinv /\ iv = -1.

  Hypothesis order : order_ok okU lt.
  Hypothesis conv_ok : forall x, okT x = true -> okU (conv x) = true.
  Hypothesis inv_bad : okU uinv = false.

  Lemma map_ok V : forallb okT V = true -> forall y, In y (map conv V) -> okU y = true.
  Proof. intros H y Hy. apply in_map_iff in Hy as (x & <- & Hx). rewrite forallb_forall in H. auto. Qed.

  Lemma min_merge V o x vals : forallb okT V = true -> forallb okT (x :: vals) = true ->
    match V with [] => o = uinv | _ => least lt (map conv V) o /\ okU o = true end ->
    let d := lmin conv lt vals (conv x) in
    let r := if negb (okU o) || lt d o then d else o in
    least lt (map conv (V ++ x :: vals)) r /\ okU r = true.
  Proof.
    intros HV Hv Ho d r.
    assert (Ld : least lt (map conv (x :: vals)) d) by (eapply lmin_least1; eauto).
    assert (Od : okU d = true) by (destruct Ld as [I _]; eapply map_ok; eauto).
    destruct V as [|y V].
    - subst o. subst r. rewrite inv_bad. simpl. split; auto.
    - destruct Ho as [Lo Oo]. subst r. rewrite Oo. cbn [negb orb]. split; [|destruct (lt d o); auto].
      rewrite map_app. apply (least_choose okU); auto.
      rewrite <- map_app. apply map_ok. rewrite forallb_app, HV, Hv. reflexivity.
  Qed.

  Lemma gather_min vs cs :
    Forall2 (core_cell (AccumMin okT uinv conv lt)) vs cs ->
    min_spec okT uinv conv lt (concat (map core_vals vs))
      (g_finish (GatherMin okU uinv lt) (gfold (g_step (GatherMin okU uinv lt)) true cs (uinv, match cs with (_, c) :: _ => snd c | [] => 0 end, 0))).
  Proof.
    clear tot zero add div.
    intros F.
    assert (Hg : min_good (concat (map core_vals vs)) (gfold (g_step (GatherMin okU uinv lt)) true cs (uinv, match cs with (_, c) :: _ => snd c | [] => 0 end, 0))).
    { apply (gather_inv_first (AccumMin okT uinv conv lt)); auto.
      - unfold min_good. cbn. split; [lia|auto].
      - intros vals x. change (a_clear _ (x, 0)) with (uinv, 0). cbv zeta. rewrite min_fold. unfold min_good.
        destruct (forallb okT vals) eqn:Ev.
        + destruct vals as [|v vals]; cbn [snd g_step GatherMin]; [cbn; rewrite ?Ev; split; [lia|auto]|].
          change (1 =? 0) with false. change (1 =? -1) with false. cbn [orb]. rewrite inv_bad. cbn [negb orb].
          split; [lia|]. pose proof (min_merge [] uinv v vals eq_refl Ev eq_refl) as M. cbv zeta in M. rewrite inv_bad in M. exact M.
        + cbn. auto.
      - intros V [[o iv] t] vals x. unfold min_good. change (a_clear _ (x, 0)) with (uinv, 0). rewrite min_fold, forallb_app.
        destruct (forallb okT V) eqn:EV; cbn [andb].
        + intros [Hi Ho]. destruct (forallb okT vals) eqn:Ev.
          * destruct vals as [|v vals]; cbn [g_step GatherMin].
            -- change (0 =? 0) with true. cbn [orb]. rewrite app_nil_r. auto.
            -- change (1 =? 0) with false. change (1 =? -1) with false. rewrite (proj2 (Z.eqb_neq iv (-1))) by auto. cbn [orb].
               pose proof (min_merge V o v vals EV Ev Ho) as M. cbv zeta in M.
               assert (E : forall (A : Prop) (B : T -> list T -> Prop), match V ++ v :: vals with [] => A | y :: l => B y l end =
                            B (hd v (V ++ v :: vals)) (tl (V ++ v :: vals))) by (intros; destruct V; reflexivity).
               destruct (negb (okU o) || lt _ o); split; auto; destruct (V ++ v :: vals) eqn:Ew; auto;
                 destruct V; discriminate.
          * cbn [g_step GatherMin]. change (-1 =? 0) with false. rewrite (proj2 (Z.eqb_neq iv (-1))) by auto. cbn. auto.
        + intros [-> ->]. cbn [g_step GatherMin]. change (-1 =? -1) with true.
          destruct (if forallb okT vals then _ else _) as [d n]. rewrite ?orb_true_r. auto. }
    destruct (gfold _ _ _ _) as [[o iv] t]. cbn [g_finish GatherMin fst]. unfold min_spec, min_good in *.
    destruct (forallb okT (concat (map core_vals vs))); cbn [andb]; [|apply Hg]. destruct Hg as [_ Hg]. destruct (concat (map core_vals vs)); cbn; tauto.
  Qed.

  (* nanmin *)
  Lemma gather_nanmin vs cs :
    Forall2 (core_cell (AccumNanMin okT okU uinv conv lt)) vs cs ->
    nanmin_spec okT uinv conv lt (concat (map core_vals vs))
      (g_finish (GatherNanMin okU lt) (gfold (g_step (GatherNanMin okU lt)) true cs (uinv, match cs with (_, c) :: _ => snd c | [] => 0 end, 0))).
  Proof.
    clear tot zero add div.
    intros F.
    pose (G := fun (V : list T) (s : gcell) => let o := fst (fst s) in
       match filter okT V with [] => o = uinv | _ => least lt (map conv (filter okT V)) o /\ okU o = true end).
    assert (Hstep : forall first V s vals x, G V s -> G (V ++ vals) (g_step (GatherNanMin okU lt) first s
              (fold_left (a_step (AccumNanMin okT okU uinv conv lt)) vals (a_clear (AccumNanMin okT okU uinv conv lt) (x, 0))))).
    { intros first V [[o iv] t] vals x Ho. unfold G in *. cbn [fst snd] in *. change (a_clear _ (x, 0)) with (uinv, 0). rewrite (nanmin_fold okT okU uinv) by auto.
      rewrite filter_app. pose proof (forallb_filter okT vals) as Fv. pose proof (forallb_filter okT V) as FV.
      destruct (filter okT vals) as [|v vs'] eqn:Ev.
      - cbn [g_step GatherNanMin]. rewrite inv_bad. rewrite app_nil_r. exact Ho.
      - rewrite inv_bad. cbn [g_step GatherNanMin].
        pose proof (min_merge (filter okT V) o v vs' FV Fv Ho) as M. cbv zeta in M.
        assert (Od : okU (lmin conv lt vs' (conv v)) = true).
        { assert (Ld : least lt (map conv (v :: vs')) (lmin conv lt vs' (conv v))) by (eapply lmin_least1; eauto).
          destruct Ld as [I _]. exact (map_ok (v :: vs') Fv _ I). }
        rewrite Od. destruct (negb (okU o) || lt _ o); cbn [fst]; destruct (filter okT V ++ v :: vs') eqn:Ew; auto;
                 destruct (filter okT V); discriminate. }
    assert (Hg : G (concat (map core_vals vs)) (gfold (g_step (GatherNanMin okU lt)) true cs (uinv, match cs with (_, c) :: _ => snd c | [] => 0 end, 0))).
    { apply (gather_inv_first (AccumNanMin okT okU uinv conv lt)); auto.
      - reflexivity.
      - intros vals x. cbv zeta. apply (Hstep true [] (uinv, _, 0)). reflexivity. }
    destruct (gfold _ _ _ _) as [[o iv] t]. cbn [g_finish GatherNanMin fst]. unfold nanmin_spec, min_spec. rewrite forallb_filter.
    unfold G in Hg. cbn [fst] in Hg. destruct (filter okT _); cbn; tauto.
  Qed.
End Ops.
