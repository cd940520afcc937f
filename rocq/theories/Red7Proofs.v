(** Minimum and maximum of integer and floating-point arrays; positions; strides. *)
From Verif Require Import Base Num LayoutModel LayoutSpec LayoutProofs RedModel RedSpec RedProofs Red3Proofs Red6Proofs.
From Coq Require Import Permutation Lia.
Local Open Scope Z_scope.

(** * Laws of the two kinds of values *)
Lemma int_trans t x y z : vlt (IntV t) x y = true -> vlt (IntV t) y z = true -> vlt (IntV t) x z = true.
Proof. cbn. rewrite !Z.ltb_lt. lia. Qed.
Lemma int_tot t x y : vvalid (IntV t) x = true -> vvalid (IntV t) y = true -> vlt (IntV t) x y = false -> vlt (IntV t) y x = false -> x = y.
Proof. cbn. intros _ _. rewrite !Z.ltb_ge. lia. Qed.
Lemma int_inv t : vvalid (IntV t) (vinv (IntV t)) = false.
Proof. cbn. unfold ivalid. now rewrite Z.eqb_refl. Qed.
Lemma int_inv_only t x : vvalid (IntV t) x = false -> x = vinv (IntV t).
Proof. cbn. unfold ivalid. intros H. apply negb_false_iff, Z.eqb_eq in H. assumption. Qed.
Lemma fl_irr (x : fl) : flt x x = false.
Proof. destruct x; cbn; try reflexivity. apply Z.ltb_irrefl. Qed.
Lemma fl_trans x y z : flt x y = true -> flt y z = true -> flt x z = true.
Proof. destruct x, y, z; cbn; try discriminate; try reflexivity. rewrite !Z.ltb_lt. lia. Qed.
Lemma fl_tot x y : vvalid FltV x = true -> vvalid FltV y = true -> vlt FltV x y = false -> vlt FltV y x = false -> x = y.
Proof. destruct x, y; cbn; try discriminate; try reflexivity. intros _ _. rewrite !Z.ltb_ge. intros. f_equal. lia. Qed.
Lemma fl_inv_only x : vvalid FltV x = false -> x = vinv FltV.
Proof. destruct x; cbn; try discriminate; reflexivity. Qed.

Lemma std_int t max x y : std_op (IntV t) max x y = int_op max x y.
Proof. unfold std_op, int_op. cbn [vlt IntV]. destruct max; [destruct (Z.ltb_spec x y)|destruct (Z.ltb_spec y x)]; lia. Qed.
Lemma int_op_ok t max : opok (IntV t) max (fun x => (tmin t <= x <= tmax t) /\ (mm_scan t max = true -> vvalid (IntV t) x = true)) (int_op max).
Proof.
  intros a b [RA VA] [RB VB].
  assert (D : int_op max a b = a \/ int_op max a b = b) by (unfold int_op; destruct max; lia).
  split; [destruct D as [-> | ->]; auto|]. split.
  - intros _ _. now rewrite std_int.
  - intros H. destruct (mm_scan t max) eqn:S; [rewrite VA, VB in H by reflexivity; destruct H; discriminate|].
    assert (E : a = inv t \/ b = inv t).
    { destruct H as [H|H]; [left|right]; now apply int_inv_only in H. }
    cbn [vinv IntV]. unfold mm_scan in S. unfold int_op. destruct max; apply negb_false_iff, Z.eqb_eq in S; rewrite S in *; lia.
Qed.
Lemma inv_range t : tmin t <= inv t <= tmax t.
Proof. destruct t; cbn; lia. Qed.

Lemma int_kernel_ok t max b : b <> [] -> in_type t b -> madds (IntV t) max Fin (fun _ => True) (fun b => b) (mm_kernel t max) b.
Proof.
  intros N T.
  assert (DL : forall x y : Z, vvalid (IntV t) x = true -> vvalid (IntV t) y = true -> flt (Fin x) (Fin y) = vlt (IntV t) x y) by reflexivity.
  assert (DN : forall x : Z, vvalid (IntV t) x = true -> is_nan (Fin x) = false) by reflexivity.
  assert (A : (0 < per_reg t)%nat -> madds (IntV t) max Fin (fun _ => True) (fun b => b) (MM_avx2 (IntV t) Fin max (mm_scan t max) (int_op max) (per_reg t)) b).
  { intros W. apply (avx2_ok (IntV t) Z.ltb_irrefl (int_trans t) (int_tot t) (int_inv t) (int_inv_only t) max Fin DL DN (mm_scan t max) (int_op max) (per_reg t) (fun x => tmin t <= x <= tmax t)); try assumption.
    - unfold in_type in T. now rewrite Forall_forall in T.
    - apply int_op_ok.
    - intros _. apply inv_range. }
  assert (SC : madds (IntV t) max Fin (fun _ => True) (fun b => b) (MM_scalar (IntV t) Fin max) b).
  { apply (scalar_ok (IntV t) Z.ltb_irrefl (int_trans t) (int_tot t) (int_inv t) (int_inv_only t) max Fin DL DN b N). }
  destruct t; cbn [mm_kernel]; first [exact SC|apply A; cbn; lia].
Qed.
Lemma int_minmax_ok t max nt sch l : l <> [] -> in_type t l -> splits l sch ->
  exists r, int_minmax t false max nt sch l = Some (PyInt r) /\ minmax_ok (IntV t) max l r.
Proof.
  intros N T P. unfold int_minmax. destruct l as [|y q] eqn:E; [congruence|]. rewrite <- E in *. clear E.
  destruct (WorkMM_ok (IntV t) Z.ltb_irrefl (int_trans t) (int_tot t) (int_inv t) (int_inv_only t) max Fin) with (q := fun _ : Z => True) (vals := fun b : list Z => b) (k := mm_kernel t max) (nt := nt) (sch := sch) (l := l) as (s & -> & H); auto.
  { intros b NB I. apply int_kernel_ok; [assumption|]. unfold in_type in *. rewrite Forall_forall in *. auto. }
  destruct H as [[H _]|(_ & L & v & V1 & _ & V3)]; [contradiction|].
  destruct (Z.eqb_spec (mlen s) 0); [lia|]. rewrite V1. eauto.
Qed.
Lemma int_nanminmax_ok t max nt sch l : l <> [] -> splits l sch ->
  exists r, int_minmax t true max nt sch l = Some (PyInt r) /\ nanminmax_ok (IntV t) max l r.
Proof.
  intros N P. unfold int_minmax. destruct l as [|y q] eqn:E; [congruence|]. rewrite <- E in *. clear E.
  destruct (WorkMM_ok (IntV t) Z.ltb_irrefl (int_trans t) (int_tot t) (int_inv t) (int_inv_only t) max Fin) with (q := fun x : Z => vvalid (IntV t) x = true) (vals := fun b : list Z => filter (vvalid (IntV t)) b) (k := MM_nan (IntV t) Fin max) (nt := nt) (sch := sch) (l := l) as (s & -> & H); auto.
  - intros. apply filter_app.
  - intros. now apply filter_perm'.
  - intros b x I. now apply filter_In in I.
  - intros b NB I. apply (nan_ok (IntV t) Z.ltb_irrefl (int_trans t) (int_tot t) (int_inv t) (int_inv_only t) max Fin); reflexivity.
  - unfold nanminmax_ok. cbv zeta. destruct H as [[H L]|(NV & L & v & V1 & _ & V3)].
    + rewrite L. cbn [Z.eqb]. eexists. split; [reflexivity|]. rewrite H. split; [congruence|reflexivity].
    + destruct (Z.eqb_spec (mlen s) 0); [lia|]. rewrite V1. eexists. split; [reflexivity|]. split; [|congruence].
      intros _. apply V3. intros x I. now apply filter_In in I.
Qed.

Lemma flt_op_ok max : opok FltV max (fun x => True /\ (false = true -> vvalid FltV x = true)) (flt_op max).
Proof.
  intros a b _ _. split; [split; [exact I|discriminate]|]. split.
  - cbn [vvalid FltV]. intros A B. unfold flt_op, std_op. cbn [vlt FltV].
    destruct (is_nan a) eqn:E; [discriminate|]. apply negb_true_iff in B.
    destruct max.
    + destruct (flt b a) eqn:H1, (flt a b) eqn:H2; try reflexivity.
      * pose proof (fl_trans _ _ _ H1 H2) as C. rewrite fl_irr in C. discriminate.
      * symmetry. apply fl_tot; try assumption; cbn; now rewrite ?E, ?B.
    + destruct (flt a b) eqn:H1, (flt b a) eqn:H2; try reflexivity.
      * pose proof (fl_trans _ _ _ H1 H2) as C. rewrite fl_irr in C. discriminate.
      * symmetry. apply fl_tot; try assumption; cbn; now rewrite ?E, ?B.
  - cbn [vvalid FltV vinv]. intros H. unfold flt_op. destruct a; cbn [is_nan negb] in *.
    + destruct max; reflexivity.
    + destruct H as [H|H]; [discriminate|]. destruct b; try discriminate. destruct max; reflexivity.
    + destruct H as [H|H]; [discriminate|]. destruct b; try discriminate. destruct max; reflexivity.
    + destruct H as [H|H]; [discriminate|]. destruct b; try discriminate. destruct max; reflexivity.
Qed.
Lemma flt_kernel_ok w max b : (0 < w)%nat -> b <> [] -> madds FltV max (fun x => x) (fun _ => True) (fun b => b) (flt_kernel w max) b.
Proof.
  intros W N.
  apply (avx2_ok FltV fl_irr fl_trans fl_tot eq_refl fl_inv_only max (fun x => x)) with (dom := fun _ => True); auto.
  - intros x. cbn. intros H. now apply negb_true_iff in H.
  - apply flt_op_ok.
Qed.
Lemma cast_flt v : cast_d FltV (fun x => x) v = v.
Proof. destruct v; reflexivity. Qed.
Lemma flt_minmax_ok w max nt sch l : (0 < w)%nat -> l <> [] -> splits l sch ->
  exists r, flt_minmax w false max nt sch l = Some (PyFloat r) /\ minmax_ok FltV max l r.
Proof.
  intros W N P. unfold flt_minmax. destruct l as [|y q] eqn:E; [congruence|]. rewrite <- E in *. clear E.
  assert (DN : forall x, vvalid FltV x = true -> is_nan x = false) by (intros x; cbn; intros H; now apply negb_true_iff in H).
  destruct (WorkMM_ok FltV fl_irr fl_trans fl_tot eq_refl fl_inv_only max (fun x => x) (fun x y _ _ => eq_refl) DN) with (q := fun _ : fl => True) (vals := fun b : list fl => b) (k := flt_kernel w max) (nt := nt) (sch := sch) (l := l) as (s & -> & H); auto.
  { intros b NB I. now apply flt_kernel_ok. }
  destruct H as [[H _]|(_ & L & v & _ & V2 & V3)]; [contradiction|].
  destruct (Z.eqb_spec (mlen s) 0); [lia|]. rewrite V2, cast_flt. eauto.
Qed.
Lemma flt_nanminmax_ok w max nt sch l : l <> [] -> splits l sch ->
  exists r, flt_minmax w true max nt sch l = Some (PyFloat r) /\ nanminmax_ok FltV max l r.
Proof.
  intros N P. unfold flt_minmax. destruct l as [|y q] eqn:E; [congruence|]. rewrite <- E in *. clear E.
  assert (DN : forall x, vvalid FltV x = true -> is_nan x = false) by (intros x; cbn; intros H; now apply negb_true_iff in H).
  destruct (WorkMM_ok FltV fl_irr fl_trans fl_tot eq_refl fl_inv_only max (fun x => x) (fun x y _ _ => eq_refl) DN) with (q := fun x : fl => vvalid FltV x = true) (vals := fun b : list fl => filter (vvalid FltV) b) (k := MM_nan FltV (fun x => x) max) (nt := nt) (sch := sch) (l := l) as (s & -> & H); auto.
  - intros. apply filter_app.
  - intros. now apply filter_perm'.
  - intros b x I. now apply filter_In in I.
  - intros b NB I. apply (nan_ok FltV fl_irr fl_trans fl_tot eq_refl fl_inv_only max (fun x => x)); auto.
  - unfold nanminmax_ok. cbv zeta. destruct H as [[H L]|(NV & L & v & V1 & V2 & V3)].
    + rewrite L. cbn [Z.eqb]. eexists. split; [reflexivity|]. rewrite H. split; [congruence|reflexivity].
    + destruct (Z.eqb_spec (mlen s) 0); [lia|]. rewrite V2, cast_flt. eexists. split; [reflexivity|]. split; [|congruence].
      intros _. apply V3. intros x I. now apply filter_In in I.
Qed.

(** * Positions *)
Section argp.
Context (M : vops).
Hypothesis L_irr : forall x, vlt M x x = false.
Hypothesis L_trans : forall x y z, vlt M x y = true -> vlt M y z = true -> vlt M x z = true.
Hypothesis L_tot : forall x y, vvalid M x = true -> vvalid M y = true -> vlt M x y = false -> vlt M y x = false -> x = y.
Context (max : bool).
Lemma beats_better x r : beats M max x r = better M max r x.
Proof. reflexivity. Qed.
Lemma nth_app_l {X} (p k : list X) i : (i < length p)%nat -> nth_error (p ++ k) i = nth_error p i.
Proof. apply nth_error_app1. Qed.
(* the first of the best of [v] is [r], at position [ri] of [p]; only entries satisfying [ok] count *)
Definition first_best (ok : val M -> bool) (p : list (val M)) (r : val M) (ri : nat) : Prop :=
  nth_error p ri = Some r /\ ok r = true /\ (forall x, In x p -> ok x = true -> better M max r x = false) /\
  (forall j y, (j < ri)%nat -> nth_error p j = Some y -> ok y = true -> better M max y r = true).
Lemma first_best_take ok p r ri x : (forall y, ok y = true -> vvalid M y = true) -> ok x = true -> better M max r x = true ->
  first_best ok p r ri -> first_best ok (p ++ [x]) x (length p).
Proof.
  intros OV OX B (N & OR & H1 & H2).
  assert (K : forall y, In y p -> ok y = true -> better M max y x = true).
  { intros y I OY. pose proof (H1 y I OY) as C. destruct (better M max y x) eqn:E; [reflexivity|]. exfalso.
    assert (D : better M max r x = false) by (eapply (better_neg M L_trans L_tot max r y x); auto). congruence. }
  split; [rewrite nth_error_app2, Nat.sub_diag by lia; reflexivity|]. split; [assumption|]. split.
  - intros y I OY. apply in_app_or in I as [I|[<-|[]]]; [|apply (better_irr M L_irr)]. apply (better_asym M L_irr L_trans). auto.
  - intros j y J E OY. rewrite nth_app_l in E by assumption. apply K; [eapply nth_error_In; eassumption|assumption].
Qed.
Lemma first_best_keep ok p r ri x : (ok x = true -> better M max r x = false) -> first_best ok p r ri -> first_best ok (p ++ [x]) r ri.
Proof.
  intros B (N & OR & H1 & H2). assert (L : (ri < length p)%nat) by (apply nth_error_Some; congruence).
  split; [now rewrite nth_app_l|]. split; [assumption|]. split.
  - intros y I OY. apply in_app_or in I as [I|[<-|[]]]; auto.
  - intros j y J E OY. rewrite nth_app_l in E by lia. eauto.
Qed.
Lemma arg_loop_ok k : forall p r ri, all_valid M p -> first_best (fun _ => true) p r ri ->
  exists i, arg_loop M max k (Z.of_nat (length p)) r (Z.of_nat ri) = Z.of_nat i /\ arg_ok M max (p ++ k) i.
Proof.
  induction k as [|x k IH]; intros p r ri V FB; cbn [arg_loop].
  - exists ri. split; [reflexivity|]. rewrite app_nil_r. destruct FB as (N & _ & H1 & H2). exists r. split; [assumption|]. right.
    split; [assumption|]. split; [split; [eapply nth_error_In; eassumption|intros x I; now apply H1]|]. intros j y J E. now apply (H2 j y J E).
  - destruct (vvalid M x) eqn:VX; cbn [negb].
    + assert (V' : all_valid M (p ++ [x])) by (intros y I; apply in_app_or in I as [I|[<-|[]]]; auto).
      replace (p ++ x :: k) with ((p ++ [x]) ++ k) by now rewrite <- app_assoc.
      replace (Z.of_nat (length p) + 1) with (Z.of_nat (length (p ++ [x]))) by (rewrite app_length; cbn; lia).
      rewrite beats_better. destruct (better M max r x) eqn:B.
      * apply IH; [assumption|].
        destruct FB as (N & _ & H1 & H2).
        assert (FBV : first_best (vvalid M) p r ri).
        { split; [assumption|]. split; [apply V; eapply nth_error_In; eassumption|]. split; [auto|eauto]. }
        destruct (first_best_take (vvalid M) p r ri x (fun _ e => e) VX B FBV) as (A1 & A2 & A3 & A4).
        split; [assumption|]. split; [reflexivity|]. split; [intros y I _; apply A3; auto|]. intros j y J E _. eapply A4; eauto. apply V'. eapply nth_error_In; eassumption.
      * apply IH; [assumption|]. now apply first_best_keep.
    + exists (length p). split; [reflexivity|]. exists x. split; [rewrite nth_error_app2, Nat.sub_diag by lia; reflexivity|]. left.
      split; [assumption|]. intros j y J E. rewrite nth_app_l in E by assumption. apply V. eapply nth_error_In; eassumption.
Qed.
Lemma arg_reduce_ok l : l <> [] -> exists i, arg_reduce M max false l = PyInt (Z.of_nat i) /\ arg_ok M max l i.
Proof.
  intros N. unfold arg_reduce. destruct l as [|x k]; [congruence|]. cbv zeta. cbn [arg_index].
  assert (H : exists i, (if vvalid M x then arg_loop M max k 1 x 0 else 0) = Z.of_nat i /\ arg_ok M max (x :: k) i).
  { destruct (vvalid M x) eqn:V.
    - apply (arg_loop_ok k [x] x 0).
      + intros y [<-|[]]. assumption.
      + split; [reflexivity|]. split; [reflexivity|]. split; [intros y [<-|[]] _; apply (better_irr M L_irr)|]. intros j y J. lia.
    - exists 0%nat. split; [reflexivity|]. exists x. split; [reflexivity|]. left. split; [assumption|]. intros j y J. lia. }
  destruct H as (i & -> & H). exists i. split; [|assumption]. destruct (Z.eqb_spec (Z.of_nat i) (-1)); [lia|reflexivity].
Qed.
Lemma nanarg_loop_ok k : forall p r ri, first_best (vvalid M) p r ri ->
  exists i, nanarg_loop M max k (Z.of_nat (length p)) r (Z.of_nat ri) = Z.of_nat i /\ nanarg_ok M max (p ++ k) i.
Proof.
  induction k as [|x k IH]; intros p r ri FB; cbn [nanarg_loop].
  - exists ri. split; [reflexivity|]. rewrite app_nil_r. destruct FB as (N & VR & H1 & H2). exists r. split; [assumption|]. split; [assumption|].
    split; [split; [apply filter_In; split; [eapply nth_error_In; eassumption|assumption]|intros x I; apply filter_In in I as [I1 I2]; now apply H1]|].
    intros j y J E VY. now apply (H2 j y J E).
  - replace (p ++ x :: k) with ((p ++ [x]) ++ k) by now rewrite <- app_assoc.
    replace (Z.of_nat (length p) + 1) with (Z.of_nat (length (p ++ [x]))) by (rewrite app_length; cbn; lia).
    rewrite beats_better. destruct (vvalid M x) eqn:VX; cbn [andb].
    + destruct (better M max r x) eqn:B; apply IH.
      * eapply first_best_take; eauto.
      * now apply first_best_keep.
    + apply IH. apply first_best_keep; [congruence|assumption].
Qed.
Lemma nanarg_find_ok k : forall p, (forall x, In x p -> vvalid M x = false) ->
  (filter (vvalid M) (p ++ k) = [] /\ nanarg_find M max k (Z.of_nat (length p)) = -1) \/
  exists i, nanarg_find M max k (Z.of_nat (length p)) = Z.of_nat i /\ nanarg_ok M max (p ++ k) i.
Proof.
  induction k as [|x k IH]; intros p H; cbn [nanarg_find].
  - left. split; [|reflexivity]. rewrite app_nil_r. induction p as [|y p IHp]; [reflexivity|]. cbn. rewrite (H y) by now left.
    apply IHp. intros z I. apply H. now right.
  - replace (p ++ x :: k) with ((p ++ [x]) ++ k) by now rewrite <- app_assoc.
    replace (Z.of_nat (length p) + 1) with (Z.of_nat (length (p ++ [x]))) by (rewrite app_length; cbn; lia).
    destruct (vvalid M x) eqn:VX.
    + right. apply nanarg_loop_ok. split; [rewrite nth_error_app2, Nat.sub_diag by lia; reflexivity|]. split; [assumption|]. split.
      * intros y I V. apply in_app_or in I as [I|[<-|[]]]; [rewrite H in V by assumption; discriminate|apply (better_irr M L_irr)].
      * intros j y J E V. rewrite nth_app_l in E by assumption. apply nth_error_In in E. rewrite H in V by assumption. discriminate.
    + apply IH. intros y I. apply in_app_or in I as [I|[<-|[]]]; auto.
Qed.
Lemma nanarg_reduce_ok l : l <> [] -> (filter (vvalid M) l = [] /\ arg_reduce M max true l = ValueError) \/
  (filter (vvalid M) l <> [] /\ exists i, arg_reduce M max true l = PyInt (Z.of_nat i) /\ nanarg_ok M max l i).
Proof.
  intros N. unfold arg_reduce. destruct l as [|x k] eqn:E; [congruence|]. rewrite <- E in *. clear E. cbv zeta.
  destruct (nanarg_find_ok l [] ltac:(intros y [])) as [[H1 H2]|(i & H1 & H2)]; cbn [length Z.of_nat app] in *.
  - left. rewrite H2. auto.
  - right. rewrite H1. split.
    + destruct H2 as (y & _ & _ & [I _] & _). intros C. now rewrite C in I.
    + exists i. split; [|assumption]. destruct (Z.eqb_spec (Z.of_nat i) (-1)); [lia|reflexivity].
Qed.
End argp.

(** * Strides *)
Lemma posF_onto ds : forall p, (p < prod ds)%nat -> exists idx, valid ds idx /\ posF ds idx = p.
Proof.
  induction ds as [|d ds IH]; intros p H; cbn [prod fold_right] in H.
  - exists []. split; [constructor|cbn; lia].
  - fold (prod ds) in H. destruct (IH (p / d)%nat) as (idx & V & E).
    { apply Nat.div_lt_upper_bound; lia. }
    exists ((p mod d)%nat :: idx). split.
    + constructor; [apply Nat.mod_upper_bound; lia|assumption].
    + cbn [posF]. rewrite E. pose proof (Nat.div_mod p d ltac:(lia)). lia.
Qed.
Lemma posC_onto ds : forall p, (p < prod ds)%nat -> exists idx, valid ds idx /\ posC ds idx = p.
Proof.
  induction ds as [|d ds IH]; intros p H; cbn [prod fold_right] in H.
  - exists []. split; [constructor|cbn; lia].
  - fold (prod ds) in H. destruct (IH (p mod prod ds)%nat) as (idx & V & E).
    { apply Nat.mod_upper_bound. lia. }
    exists ((p / prod ds)%nat :: idx). split.
    + constructor; [apply Nat.div_lt_upper_bound; lia|assumption].
    + cbn [posC]. rewrite E. pose proof (Nat.div_mod p (prod ds) ltac:(lia)). lia.
Qed.
Lemma reads_exact a (pos : list nat -> nat) : 0 < isz a -> (forall idx, valid (dims a) idx -> (pos idx < prod (dims a))%nat /\ offset (strides a) idx = Z.of_nat (pos idx) * isz a) ->
  (forall p, (p < prod (dims a))%nat -> exists idx, valid (dims a) idx /\ pos idx = p) ->
  exact_reads a (map (fun k => Z.of_nat k * isz a) (seq 0 (prod (dims a)))).
Proof.
  intros S H O. split.
  - apply FinFun.Injective_map_NoDup; [|apply seq_NoDup]. intros x y E. nia.
  - intros o. split.
    + intros I. apply in_map_iff in I as (k & <- & K). apply in_seq in K. destruct (O k) as (idx & V & <-); [lia|].
      exists idx. split; [assumption|]. now apply H.
    + intros (idx & V & <-). destruct (H idx V) as [L ->]. apply in_map_iff. exists (pos idx). split; [reflexivity|]. apply in_seq. lia.
Qed.
Lemma Reduce_reads_ok a offs : 0 < isz a -> good a ->
  (length (dims a) = 1%nat \/ strides a = cstrides (isz a) (dims a) \/ f_flag (isz a) (dims a) (strides a) = true) ->
  Reduce_reads a = Read offs -> exact_reads a offs.
Proof.
  intros S (G1 & G2) C R. unfold Reduce_reads in R.
  destruct (dims a) as [|d0 ds] eqn:D; [discriminate|]. destruct (strides a) as [|s0 ss] eqn:E; [discriminate|].
  destruct ((d0 <=? 1)%nat || (s0 =? isz a)) eqn:A; [|discriminate]. apply (f_equal (fun r => match r with Read o => o | _ => [] end)) in R. cbv beta iota in R. subst offs. rewrite <- D in *.
  destruct C as [C|[C|C]].
  - apply (reads_exact a (posF (dims a))); [assumption| |intros p P; now apply posF_onto].
    rewrite D in *. destruct ds; [|discriminate]. destruct ss; [|discriminate].
    intros idx V. split; [now apply posF_lt|]. inversion V as [|i ? is ? I V']; subst. inversion V'; subst. rewrite E. cbn.
    inversion G1; subst. apply orb_prop in A as [A|A].
    + apply Nat.leb_le in A. assert (i = 0)%nat by lia. subst. lia.
    + apply Z.eqb_eq in A. rewrite A. lia.
  - apply (reads_exact a (posC (dims a))); [assumption| |intros p P; now apply posC_onto].
    intros idx V. split; [now apply posC_lt|]. rewrite E, C. now apply offset_C.
  - apply (reads_exact a (posF (dims a))); [assumption| |intros p P; now apply posF_onto].
    intros idx V. split; [now apply posF_lt|]. apply offset_flag; [assumption|congruence|]. rewrite E. assumption.
Qed.
