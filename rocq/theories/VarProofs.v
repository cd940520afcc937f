(** Proofs: group variance and standard deviation. *)
From Verif Require Import Base Mem MemLemmas Inter AccumModel AccumSpec AccumProofs VarModel VarSpec.
Local Open Scope Z_scope.

Section Runs.
  Context {T U D : Type}.
  Lemma fresh_tab (d : U) (e : D) out0 tmp0 sq0 : length tmp0 = length out0 -> length sq0 = length out0 ->
    fresh out0 tmp0 sq0 = tab (length out0) (fun g => mkV (nth (Z.to_nat g) out0 d) 0 (nth (Z.to_nat g) tmp0 e) (nth (Z.to_nat g) sq0 e)).
  Proof.
    intros L1 L2. unfold fresh. apply list_ext. intros i.
    destruct (Nat.lt_ge_cases i (length out0)) as [Hl|Hl].
    - rewrite tab_nth by auto. rewrite Nat2Z.id.
      rewrite nth_error_map.
      assert (E : nth_error (combine out0 (combine tmp0 sq0)) i = Some (nth i out0 d, (nth i tmp0 e, nth i sq0 e))).
      { rewrite (nth_error_nth' _ (d, (e, e))) by (rewrite !combine_length; lia).
        rewrite combine_nth by (rewrite combine_length; lia). rewrite combine_nth by lia. reflexivity. }
      rewrite E. reflexivity.
    - rewrite !nth_error_ge; auto; [now rewrite tab_length|]. rewrite map_length, !combine_length. lia.
  Qed.

  Section Run.
    Context (uinv : U) (zeroD : D) (f : Z -> Z -> Z -> list (Z * T) -> list (vcell U D) -> option (list (vcell U D))) (fin : list T -> vcell U D -> vcell U D)
            (P : list T -> U -> Prop) (low high : Z) (rows : list (Z * T)) (out0 : list U) (tmp0 sq0 : list D).
    Lemma run_ok :
      (forall N h, high <= Z.of_nat N -> exists k, f (-1) low high rows (tab N h) = Some (tab N k) /\
         (forall g, low <= g < high -> k g = fin (group_vals rows g) (h g)) /\ (forall g, ~ low <= g < high -> v_out (k g) = v_out (h g))) ->
      (forall vals c, v_count c = 0 -> P vals (v_out (fin vals c))) ->
      0 <= low <= high -> high <= Z.of_nat (length out0) -> length tmp0 = length out0 -> length sq0 = length out0 ->
      exists res, run_var f low high rows out0 tmp0 sq0 = Some res /\ length res = length out0 /\ reduced P low high rows res /\
        outside_kept low high out0 res.
    Proof.
      intros HF HP H0 H1 L1 L2. unfold run_var. rewrite (fresh_tab uinv zeroD) by auto.
      destruct (HF (length out0) (fun g => mkV (nth (Z.to_nat g) out0 uinv) 0 (nth (Z.to_nat g) tmp0 zeroD) (nth (Z.to_nat g) sq0 zeroD)) H1) as (k & E & K1 & K2).
      rewrite E. cbn [option_map]. rewrite map_tab. eexists. split; [reflexivity|]. split; [apply tab_length|]. split.
      - intros g Hg. rewrite tab_nth by lia. eexists. split; [reflexivity|]. replace (Z.of_nat (Z.to_nat g)) with g by lia.
        rewrite K1 by exact Hg. apply HP. reflexivity.
      - intros g Hg. destruct (Nat.lt_ge_cases g (length out0)) as [Hl|Hl].
        + rewrite tab_nth by auto. rewrite K2 by exact Hg. cbn [v_out]. rewrite Nat2Z.id. symmetry. now apply nth_error_nth'.
        + rewrite !nth_error_ge; auto. now rewrite tab_length.
    Qed.
  End Run.
End Runs.

Section P.
  Context {T U D : Type} (okT : T -> bool) (uinv zero : U) (zeroD : D) (convD : T -> D) (castf : D -> U)
          (addD subD mulD : D -> D -> D) (divD : D -> Z -> D) (sqrtU : U -> U).
  Context (p : place U D).

  (* the place of the mean *)
  Definition place_ok : Prop :=
    (forall x c, p_get p (p_set p x c) = x) /\ (forall x c, v_count (p_set p x c) = v_count c) /\ (forall x c, v_sq (p_set p x c) = v_sq c) /\
    (forall n c, p_get p (set_count n c) = p_get p c) /\ (forall x c, p_get p (set_sq x c) = p_get p c) /\
    (forall c, p_get p (if p_tmp p then set_tmp zeroD (set_vout zero c) else set_vout zero c) = zeroD).

  Notation vc := (var_count okT convD addD p).
  Notation vm := (var_mean divD p).
  Notation vs := (var_square convD addD subD mulD p).
  Notation nc := (nanvar_count okT convD addD p).
  Notation nm := (nanvar_mean divD p).
  Notation ns := (nanvar_square okT convD addD subD mulD p).
  Notation vo := (var_out uinv castf divD).
  Let tot := fold_left (fun s x => addD s (convD x)).
  Let sqs m := fold_left (fun s x => addD s (mulD (subD (convD x) m) (subD (convD x) m))).

  Lemma variance_tab (count : vcell U D -> T -> vcell U D) mean square N pass low high rows h : 0 <= low <= high -> high <= Z.of_nat N ->
    variance uinv zero zeroD castf divD p count mean square pass low high rows (tab N h) = Some (tab N (fun g =>
      if inr low high g then
        let c1 := if pass <=? 0 then set_vout zero (h g) else h g in
        let c2 := if p_tmp p then set_tmp zeroD c1 else c1 in
        let v := group_vals rows g in
        vo (fold_left square v (set_sq zeroD (mean (fold_left count v c2))))
      else if inr 0 high g then set_sq zeroD (h g) else h g)).
  Proof.
    intros H0 H1. unfold variance.
    assert (E : low + Z.of_nat (Z.to_nat (high - low)) = high) by lia.
    assert (E0 : 0 + Z.of_nat (Z.to_nat high) = high) by lia.
    assert (S1 : (if pass <=? 0 then each_bin (set_vout zero) (Z.to_nat (high - low)) low (tab N h) else Some (tab N h))
      = Some (tab N (fun g => if inr low high g then if pass <=? 0 then set_vout zero (h g) else h g else h g))).
    { destruct (pass <=? 0); [rewrite each_bin_tab by lia; rewrite E; reflexivity|].
      f_equal. apply tab_ext. intros g _. now destruct (inr low high g). }
    rewrite S1. cbn [bind]. clear S1.
    set (h1 := fun g : Z => if inr low high g then if pass <=? 0 then set_vout zero (h g) else h g else h g).
    assert (S2 : (if p_tmp p then each_bin (set_tmp zeroD) (Z.to_nat (high - low)) low (tab N h1) else Some (tab N h1))
      = Some (tab N (fun g => if inr low high g then if p_tmp p then set_tmp zeroD (h1 g) else h1 g else h1 g))).
    { destruct (p_tmp p); [rewrite each_bin_tab by lia; rewrite E; reflexivity|].
      f_equal. apply tab_ext. intros g _. now destruct (inr low high g). }
    rewrite S2. cbn [bind]. clear S2.
    rewrite each_row_tab by lia. cbn [bind]. rewrite each_bin_tab by lia. rewrite E. cbn [bind].
    rewrite each_bin_tab by lia. rewrite E0. cbn [bind]. rewrite each_row_tab by lia. cbn [bind]. rewrite each_bin_tab by lia. rewrite E.
    f_equal. apply tab_ext. intros g Hg. unfold h1. destruct (inr low high g) eqn:G.
    - apply inr_true in G. rewrite (proj2 (inr_true 0 high g)) by lia. reflexivity.
    - reflexivity.
  Qed.

  (** one bin *)
  Lemma count_bad vals : forall c, v_count c < 0 -> fold_left vc vals c = c.
  Proof.
    induction vals as [|x vals IH]; intros c H; [reflexivity|]. cbn [fold_left]. unfold var_count at 2.
    destruct (Z.leb_spec 0 (v_count c)); [lia|]. apply IH, H.
  Qed.
  Lemma count_ok vals : place_ok -> forall c, 0 <= v_count c ->
    if forallb okT vals then
      v_count (fold_left vc vals c) = v_count c + Z.of_nat (length vals) /\ p_get p (fold_left vc vals c) = tot vals (p_get p c)
    else v_count (fold_left vc vals c) = -1.
  Proof.
    intros (G1 & G2 & G3 & G4 & G5 & G6). induction vals as [|x vals IH]; intros c H; cbn [fold_left forallb].
    - split; [cbn; lia|reflexivity].
    - unfold var_count at 2 4 6. destruct (Z.leb_spec 0 (v_count c)); [|lia].
      destruct (okT x) eqn:K; cbn [negb andb].
      + set (c1 := set_count (v_count c + 1) (p_set p (addD (p_get p c) (convD x)) c)).
        assert (A : v_count c1 = v_count c + 1) by reflexivity.
        assert (B : p_get p c1 = addD (p_get p c) (convD x)) by (unfold c1; rewrite G4, G1; reflexivity).
        specialize (IH c1 ltac:(lia)). destruct (forallb okT vals).
        * destruct IH as [I1 I2]. split; [rewrite I1, A; cbn [length]; lia|]. rewrite I2, B. reflexivity.
        * exact IH.
      + rewrite count_bad by (cbn; lia). reflexivity.
  Qed.
  Lemma square_bad vals : forall c, v_count c < 0 -> fold_left vs vals c = c.
  Proof.
    induction vals as [|x vals IH]; intros c H; [reflexivity|]. cbn [fold_left]. unfold var_square at 2.
    destruct (Z.leb_spec 0 (v_count c)); [lia|]. apply IH, H.
  Qed.
  Lemma square_ok vals : place_ok -> forall c, 0 <= v_count c ->
    v_count (fold_left vs vals c) = v_count c /\ v_sq (fold_left vs vals c) = sqs (p_get p c) vals (v_sq c).
  Proof.
    intros (G1 & G2 & G3 & G4 & G5 & G6). induction vals as [|x vals IH]; intros c H; cbn [fold_left]; [split; reflexivity|].
    unfold var_square at 2 4. destruct (Z.leb_spec 0 (v_count c)); [|lia]. cbn zeta.
    set (c1 := set_sq _ c). assert (A : p_get p c1 = p_get p c) by apply G5.
    destruct (IH c1 H) as [I1 I2]. rewrite I1, I2, A. split; reflexivity.
  Qed.
  Lemma ncount_ok vals : place_ok -> forall c,
    v_count (fold_left nc vals c) = v_count c + Z.of_nat (length (filter okT vals)) /\
    p_get p (fold_left nc vals c) = tot (filter okT vals) (p_get p c).
  Proof.
    intros (G1 & G2 & G3 & G4 & G5 & G6). induction vals as [|x vals IH]; intros c; cbn [fold_left filter].
    - split; [cbn; lia|reflexivity].
    - unfold nanvar_count at 2 4. destruct (okT x) eqn:K; [|apply IH].
      destruct (IH (set_count (v_count c + 1) (p_set p (addD (p_get p c) (convD x)) c))) as [I1 I2].
      rewrite I1, I2, G4, G1. split; [cbn [set_count v_count length]; lia|reflexivity].
  Qed.
  Lemma nsquare_ok vals : place_ok -> forall c,
    v_count (fold_left ns vals c) = v_count c /\ v_sq (fold_left ns vals c) = sqs (p_get p c) (filter okT vals) (v_sq c).
  Proof.
    intros (G1 & G2 & G3 & G4 & G5 & G6). induction vals as [|x vals IH]; intros c; cbn [fold_left filter]; [split; reflexivity|].
    unfold nanvar_square at 2 4. destruct (okT x) eqn:K; [|apply IH]. cbn zeta.
    set (c1 := set_sq _ c). assert (A : p_get p c1 = p_get p c) by apply G5.
    destruct (IH c1) as [I1 I2]. rewrite I1, I2, A. split; reflexivity.
  Qed.

  Definition start (c : vcell U D) : vcell U D := if p_tmp p then set_tmp zeroD (set_vout zero c) else set_vout zero c.
  Lemma start_count c : v_count (start c) = v_count c.
  Proof. unfold start. destruct (p_tmp p); reflexivity. Qed.

  Lemma bin_var vals c : place_ok -> v_count c = 0 ->
    var_spec okT uinv zeroD convD castf addD subD mulD divD vals (v_out (vo (fold_left vs vals (set_sq zeroD (vm (fold_left vc vals (start c))))))).
  Proof.
    intros G C. assert (S : v_count (start c) = 0) by (rewrite start_count; exact C).
    assert (Z0 : p_get p (start c) = zeroD) by apply G.
    pose proof (count_ok vals G (start c) ltac:(lia)) as K. unfold var_spec.
    set (c1 := fold_left vc vals (start c)) in *. destruct (forallb okT vals); cbn [andb].
    - destruct K as [K1 K2]. rewrite S in K1. rewrite Z0 in K2.
      assert (P : 0 <= v_count c1) by lia. unfold var_mean. destruct (Z.leb_spec 0 (v_count c1)); [|lia].
      set (c2 := set_sq zeroD (p_set p (divD (p_get p c1) (v_count c1)) c1)).
      destruct G as (G1 & G2 & G3 & G4 & G5 & G6).
      assert (A : v_count c2 = Z.of_nat (length vals)) by (unfold c2; cbn [set_sq v_count]; rewrite G2; lia).
      assert (B : p_get p c2 = mean_value zeroD convD addD divD vals).
      { unfold c2. rewrite G5, G1, K2, K1. unfold mean_value, total, tot. f_equal. }
      destruct (square_ok vals (conj G1 (conj G2 (conj G3 (conj G4 (conj G5 G6))))) c2 ltac:(lia)) as [I1 I2].
      unfold var_out. cbn [set_vout v_out]. rewrite I1, I2, A, B.
      destruct (Z.ltb_spec 1 (Z.of_nat (length vals))) as [L|L], (Nat.leb_spec 2 (length vals)) as [M|M]; try lia; reflexivity.
    - unfold var_mean. rewrite K. cbn. rewrite square_bad by (cbn [set_sq v_count]; lia).
      cbn [set_sq v_count]. rewrite K. reflexivity.
  Qed.
  Lemma bin_nanvar vals c : place_ok -> v_count c = 0 ->
    nanvar_spec okT uinv zeroD convD castf addD subD mulD divD vals (v_out (vo (fold_left ns vals (set_sq zeroD (nm (fold_left nc vals (start c))))))).
  Proof.
    intros G C. assert (S : v_count (start c) = 0) by (rewrite start_count; exact C).
    assert (Z0 : p_get p (start c) = zeroD) by apply G.
    destruct (ncount_ok vals G (start c)) as [K1 K2]. rewrite S in K1. rewrite Z0 in K2. unfold nanvar_spec, var_spec.
    rewrite forallb_filter. cbn [andb]. set (v := filter okT vals) in *.
    set (c1 := fold_left nc vals (start c)) in *. unfold nanvar_mean.
    set (c2 := set_sq zeroD (p_set p (divD (p_get p c1) (v_count c1)) c1)).
    pose proof G as (G1 & G2 & G3 & G4 & G5 & G6).
    assert (A : v_count c2 = Z.of_nat (length v)) by (unfold c2; cbn [set_sq v_count]; rewrite G2; lia).
    assert (B : p_get p c2 = mean_value zeroD convD addD divD v).
    { unfold c2. rewrite G5, G1, K2, K1. unfold mean_value, total, tot. f_equal. }
    destruct (nsquare_ok vals G c2) as [I1 I2]. fold v in I2.
    unfold var_out. cbn [set_vout v_out]. rewrite I1, I2, A, B.
    destruct (Z.ltb_spec 1 (Z.of_nat (length v))) as [L|L], (Nat.leb_spec 2 (length v)) as [M|M]; try lia; reflexivity.
  Qed.

  Notation AV := (AccumVar okT uinv zero zeroD convD castf addD subD mulD divD p).
  Notation AN := (AccumNanVar okT uinv zero zeroD convD castf addD subD mulD divD p).
  Notation AS := (AccumStd okT uinv zero zeroD convD castf addD subD mulD divD sqrtU p).
  Notation ANS := (AccumNanStd okT uinv zero zeroD convD castf addD subD mulD divD sqrtU p).

  Definition fin_var (vals : list T) (c : vcell U D) : vcell U D := vo (fold_left vs vals (set_sq zeroD (vm (fold_left vc vals (start c))))).
  Definition fin_nanvar (vals : list T) (c : vcell U D) : vcell U D := vo (fold_left ns vals (set_sq zeroD (nm (fold_left nc vals (start c))))).

  Lemma var_form low high rows N h : 0 <= low <= high -> high <= Z.of_nat N -> exists k, AV (-1) low high rows (tab N h) = Some (tab N k) /\
    (forall g, low <= g < high -> k g = fin_var (group_vals rows g) (h g)) /\ (forall g, ~ low <= g < high -> v_out (k g) = v_out (h g)).
  Proof.
    intros H0 H1. eexists. split; [apply variance_tab; assumption|]. split.
    - intros g Hg. cbn beta. rewrite (proj2 (inr_true _ _ _)) by exact Hg. reflexivity.
    - intros g Hg. cbn beta. rewrite (proj2 (inr_false _ _ _)) by exact Hg. destruct (inr 0 high g); reflexivity.
  Qed.
  Lemma nanvar_form low high rows N h : 0 <= low <= high -> high <= Z.of_nat N -> exists k, AN (-1) low high rows (tab N h) = Some (tab N k) /\
    (forall g, low <= g < high -> k g = fin_nanvar (group_vals rows g) (h g)) /\ (forall g, ~ low <= g < high -> v_out (k g) = v_out (h g)).
  Proof.
    intros H0 H1. eexists. split; [apply variance_tab; assumption|]. split.
    - intros g Hg. cbn beta. rewrite (proj2 (inr_true _ _ _)) by exact Hg. reflexivity.
    - intros g Hg. cbn beta. rewrite (proj2 (inr_false _ _ _)) by exact Hg. destruct (inr 0 high g); reflexivity.
  Qed.
  Lemma root_form (f : Z -> Z -> Z -> list (Z * T) -> list (vcell U D) -> option (list (vcell U D))) fin low high rows N h : 0 <= low <= high -> high <= Z.of_nat N ->
    (exists k, f (-1) low high rows (tab N h) = Some (tab N k) /\
      (forall g, low <= g < high -> k g = fin (group_vals rows g) (h g)) /\ (forall g, ~ low <= g < high -> v_out (k g) = v_out (h g))) ->
    exists k, bind (f (-1) low high rows (tab N h)) (each_bin (root sqrtU) (Z.to_nat (high - low)) low) = Some (tab N k) /\
      (forall g, low <= g < high -> k g = root sqrtU (fin (group_vals rows g) (h g))) /\ (forall g, ~ low <= g < high -> v_out (k g) = v_out (h g)).
  Proof.
    intros H0 H1 (k & E & K1 & K2). rewrite E. cbn [bind]. rewrite each_bin_tab by lia.
    replace (low + Z.of_nat (Z.to_nat (high - low))) with high by lia. eexists. split; [reflexivity|]. split.
    - intros g Hg. cbn beta. rewrite (proj2 (inr_true _ _ _)) by exact Hg. now rewrite K1.
    - intros g Hg. cbn beta. rewrite (proj2 (inr_false _ _ _)) by exact Hg. now apply K2.
  Qed.

  Section All.
    Context (low high : Z) (rows : list (Z * T)) (out0 : list U) (tmp0 sq0 : list D).
    Hypotheses (G : place_ok) (H0 : 0 <= low <= high) (H1 : high <= Z.of_nat (length out0)) (L1 : length tmp0 = length out0) (L2 : length sq0 = length out0).
    Lemma run_AccumVar : exists res, run_var AV low high rows out0 tmp0 sq0 = Some res /\ length res = length out0 /\
      reduced (var_spec okT uinv zeroD convD castf addD subD mulD divD) low high rows res /\ outside_kept low high out0 res.
    Proof using All. apply (run_ok uinv zeroD) with (fin := fin_var); auto; [intros; now apply var_form|]. intros. now apply bin_var. Qed.
    Lemma run_AccumNanVar : exists res, run_var AN low high rows out0 tmp0 sq0 = Some res /\ length res = length out0 /\
      reduced (nanvar_spec okT uinv zeroD convD castf addD subD mulD divD) low high rows res /\ outside_kept low high out0 res.
    Proof using All. apply (run_ok uinv zeroD) with (fin := fin_nanvar); auto; [intros; now apply nanvar_form|]. intros. now apply bin_nanvar. Qed.
    Lemma run_AccumStd : exists res, run_var AS low high rows out0 tmp0 sq0 = Some res /\ length res = length out0 /\
      reduced (std_spec okT uinv zeroD convD castf addD subD mulD divD sqrtU) low high rows res /\ outside_kept low high out0 res.
    Proof using All.
      apply (run_ok uinv zeroD) with (fin := fun v c => root sqrtU (fin_var v c)); auto.
      - intros N h HN. apply (root_form (AccumVar okT uinv zero zeroD convD castf addD subD mulD divD p)); auto. now apply var_form.
      - intros v c Hc. exists (v_out (fin_var v c)). split; [now apply bin_var|]. reflexivity.
    Qed.
    Lemma run_AccumNanStd : exists res, run_var ANS low high rows out0 tmp0 sq0 = Some res /\ length res = length out0 /\
      reduced (nanstd_spec okT uinv zeroD convD castf addD subD mulD divD sqrtU) low high rows res /\ outside_kept low high out0 res.
    Proof using All.
      apply (run_ok uinv zeroD) with (fin := fun v c => root sqrtU (fin_nanvar v c)); auto.
      - intros N h HN. apply (root_form (AccumNanVar okT uinv zero zeroD convD castf addD subD mulD divD p)); auto. now apply nanvar_form.
      - intros v c Hc. exists (v_out (fin_nanvar v c)). split; [now apply bin_nanvar|]. reflexivity.
    Qed.
  End All.
End P.

Lemma in_tmp_ok {U D} (zero : U) (zeroD : D) : place_ok zero zeroD in_tmp.
Proof. unfold place_ok. cbn. repeat split; reflexivity. Qed.
Lemma in_out_ok {U} (zero : U) : place_ok zero zero in_out.
Proof. unfold place_ok. cbn. repeat split; reflexivity. Qed.
