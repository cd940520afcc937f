(** Proofs about GroupByAll32: its results for integers. *)
From Verif Require Import Base Mem MemLemmas AccumModel AccumSpec VarModel VarSpec AllModel AllSpec AllProofs All2Proofs.
Local Open Scope Z_scope.

Section Ints.
  Context {F : Type} (A : arith F).

  Lemma wrapT_div U z : sized U -> (forall b, U = CF b -> False) -> (2 ^ (8 * match U with CI b | CU b | CF b => b end) | wrapT U z - z).
  Proof.
    destruct U as [b|b|b]; cbn [wrapT sized]; intros Hb HN; [| |exfalso; eauto].
    - exists (- ((z + 2 ^ (8 * b - 1)) / 2 ^ (8 * b))). assert (P : 2 ^ (8 * b) <> 0) by (apply Z.pow_nonzero; lia). pose proof (Z.div_mod (z + 2 ^ (8 * b - 1)) _ P). lia.
    - exists (- (z / 2 ^ (8 * b))). assert (P : 2 ^ (8 * b) <> 0) by (apply Z.pow_nonzero; lia). pose proof (Z.div_mod z _ P). lia.
  Qed.

  (** the values of a column of integers *)
  Lemma int_facts d lo hi mis T : int_type d = Some (lo, hi, mis) -> stored d = Some T ->
    (forall b, T <> CF b) /\ (forall z, lo <= z <= hi -> wrapT T z = z) /\ int_inv T = mis /\ lo <= hi.
  Proof.
    intros H HT. unfold int_type in H. destruct d as [|p|p]; [|repeat match goal with x : positive |- _ => destruct x as [x|x|]; try discriminate H end|discriminate H];
      injection H as <- <- <-; injection HT as <-; (split; [discriminate|]); (split; [|split; [reflexivity|lia]]);
      intros z Hz; cbn [wrapT]; cbn; rewrite Z.mod_small; lia.
  Qed.
  Lemma out_sum d lo hi mis func : int_type d = Some (lo, hi, mis) -> In func [0; 50] -> stored (out_dtype func d) = Some (if unsigned d then CU 8 else CI 8) /\ (d =? 11) = false.
  Proof.
    intros H HF. unfold int_type in H. destruct d as [|p|p]; [|repeat match goal with x : positive |- _ => destruct x as [x|x|]; try discriminate H end|discriminate H];
      cbn [In] in HF; each_func HF; split; reflexivity.
  Qed.
  Lemma out_min d lo hi mis func : int_type d = Some (lo, hi, mis) -> In func [2; 3; 52; 53] -> stored (out_dtype func d) = stored d /\ exists T, stored d = Some T.
  Proof.
    intros H HF. unfold int_type in H. destruct d as [|p|p]; [|repeat match goal with x : positive |- _ => destruct x as [x|x|]; try discriminate H end|discriminate H];
      cbn [In] in HF; each_func HF; (split; [reflexivity|eexists; reflexivity]).
  Qed.
  Lemma int_stored d x : int_type d = Some x -> exists T, stored d = Some T.
  Proof. intros H. unfold int_type in H. destruct d as [|p|p]; [|repeat match goal with x : positive |- _ => destruct x as [x|x|]; try discriminate H end|discriminate H]; eexists; reflexivity. Qed.

  Lemma ok_int T lo hi mis z : (forall b, T <> CF b) -> (forall z, lo <= z <= hi -> wrapT T z = z) -> int_inv T = mis -> lo <= z <= hi -> ok A T (I z) = negb (z =? mis).
  Proof. intros HN HW HI Hz. destruct T as [b|b|b]; [..|exfalso; eapply HN; eauto]; cbn [ok zval]; now rewrite HW, HI. Qed.
  Lemma oks_int T lo hi mis zs : (forall b, T <> CF b) -> (forall z, lo <= z <= hi -> wrapT T z = z) -> int_inv T = mis -> Forall (fun z => lo <= z <= hi) zs ->
    forallb (ok A T) (map I zs) = negb (existsb (Z.eqb mis) zs) /\ filter (ok A T) (map I zs) = map I (filter (fun y => negb (y =? mis)) zs).
  Proof.
    intros HN HW HI H. induction H as [|z zs Hz _ (E1 & E2)]; [split; reflexivity|]. cbn [map forallb existsb filter].
    rewrite E1, E2, (ok_int T lo hi mis z HN HW HI Hz), (Z.eqb_sym mis z). destruct (z =? mis); split; reflexivity.
  Qed.

  Lemma total_int U : sized U -> (forall b, U <> CF b) -> forall (zs : list Z) s, wrapT U s = s ->
    fold_left (fun s x => add A U s (conv A U x)) (map (@I F) zs) (I s) = I (wrapT U (s + fold_right Z.add 0 zs)).
  Proof.
    intros HU HN. induction zs as [|z zs IH]; intros s Hs; cbn [map fold_left fold_right]; [rewrite Z.add_0_r, Hs; reflexivity|].
    assert (E : add A U (I s) (conv A U (I z)) = I (wrapT U (s + z))).
    { destruct U as [b|b|b]; [..|exfalso; eapply HN; eauto]; cbn [add conv zval]; now rewrite wrapT_add_r. }
    rewrite E, IH by now apply wrapT_idem.
    rewrite wrapT_add by exact HU. do 2 f_equal. lia.
  Qed.
  Lemma wrap_sum64 d zs : sum64 d zs (wrapT (if unsigned d then CU 8 else CI 8) (fold_right Z.add 0 zs)).
  Proof.
    unfold sum64. split.
    - destruct (unsigned d); (exact (wrapT_div (CU 8) _ (eq_refl : sized (CU 8)) ltac:(discriminate)) || exact (wrapT_div (CI 8) _ (eq_refl : sized (CI 8)) ltac:(discriminate))).
    - destruct (unsigned d); cbn [wrapT]; change (8 * 8) with 64; change (64 - 1) with 63.
      + apply Z.mod_pos_bound. lia.
      + pose proof (Z.mod_pos_bound (fold_right Z.add 0 zs + 2 ^ 63) (2 ^ 64) ltac:(lia)). lia.
  Qed.

  Lemma conv_int T lo hi z : (forall b, T <> CF b) -> (forall z, lo <= z <= hi -> wrapT T z = z) -> lo <= z <= hi -> conv A T (I z) = I z.
  Proof. intros HN HW Hz. destruct T as [b|b|b]; [..|exfalso; eapply HN; eauto]; cbn [conv zval]; now rewrite HW. Qed.
  Lemma convs_int T lo hi zs : (forall b, T <> CF b) -> (forall z, lo <= z <= hi -> wrapT T z = z) -> Forall (fun z => lo <= z <= hi) zs -> map (conv A T) (map I zs) = map I zs.
  Proof. intros HN HW H. induction H as [|z zs Hz _ IH]; [reflexivity|]. cbn [map]. rewrite IH, (conv_int T lo hi); auto. Qed.
  Lemma least_int T (zs : list Z) r : (forall b, T <> CF b) -> least (less A T) (map I zs) r -> exists z, r = I z /\ lowest zs z.
  Proof.
    intros HN (HI & HL). apply in_map_iff in HI as (z & <- & Hz). exists z. split; [reflexivity|]. split; [exact Hz|]. intros y Hy. specialize (HL (I y) (in_map _ _ _ Hy)).
    destruct T as [b|b|b]; [..|exfalso; eapply HN; eauto]; cbn [less zval] in HL; apply Z.ltb_ge in HL; lia.
  Qed.
  Lemma greatest_int T (zs : list Z) r : (forall b, T <> CF b) -> least (greater A T) (map I zs) r -> exists z, r = I z /\ highest zs z.
  Proof.
    intros HN (HI & HL). apply in_map_iff in HI as (z & <- & Hz). exists z. split; [reflexivity|]. split; [exact Hz|]. intros y Hy. specialize (HL (I y) (in_map _ _ _ Hy)).
    destruct T as [b|b|b]; [..|exfalso; eapply HN; eauto]; cbn [greater less zval] in HL; apply Z.ltb_ge in HL; lia.
  Qed.
  Lemma filter_range (f : Z -> bool) lo hi zs : Forall (fun z => lo <= z <= hi) zs -> Forall (fun z => lo <= z <= hi) (filter f zs).
  Proof. rewrite !Forall_forall. intros H z Hz. apply filter_In in Hz as (Hz & _). auto. Qed.

  Theorem integers func d lo hi mis zs r : int_type d = Some (lo, hi, mis) -> Forall (fun z => lo <= z <= hi) zs -> In func [0; 2; 3; 50; 52; 53] ->
    group_spec A func d (map I zs) r -> exists z, r = I z /\ int_result func d mis zs z.
  Proof.
    intros HD HZ HF. destruct (int_stored _ _ HD) as (T & HT). destruct (int_facts _ _ _ _ _ HD HT) as (HN & HW & HI & _).
    destruct (oks_int T lo hi mis zs HN HW HI HZ) as (E1 & E2). set (U := if unsigned d then CU 8 else CI 8).
    assert (SU : sized U) by (unfold U; destruct (unsigned d); reflexivity). assert (NU : forall b, U <> CF b) by (unfold U; destruct (unsigned d); discriminate).
    assert (ZU : zero_of A U = I 0) by (unfold U; destruct (unsigned d); reflexivity).
    assert (IU : inval A U = I (if unsigned d then 2 ^ 64 - 1 else - 2 ^ 63)) by (unfold U; destruct (unsigned d); reflexivity).
    assert (IT : inval A T = I mis) by (subst mis; destruct T; [reflexivity..|exfalso; eapply HN; eauto]).
    assert (TOT : forall l, total (zero_of A U) (conv A U) (add A U) (map I l) = I (wrapT U (fold_right Z.add 0 l))).
    { intros l. unfold total. rewrite ZU, total_int; auto. now apply wrapT_zero. }
    unfold group_spec. rewrite HT. unfold int_result. cbv zeta. cbn [In] in HF.
    assert (MIN : forall (lt : num F -> num F -> bool) (P : list Z -> Z -> Prop) l, Forall (fun z => lo <= z <= hi) l -> (forall s, least lt (map I l) s -> exists z, s = I z /\ P l z) ->
      min_spec (ok A T) (inval A T) (conv A T) lt (map I l) r -> exists z, r = I z /\ if existsb (Z.eqb mis) l || (length l =? 0)%nat then z = mis else P l z).
    { intros lt P l Hl HP. unfold min_spec. destruct (oks_int T lo hi mis l HN HW HI Hl) as (-> & _). rewrite map_length, (convs_int T lo hi l) by assumption.
      destruct (existsb _ l); cbn [negb andb orb]; [intros ->; exists mis; auto|]. destruct (length l =? 0)%nat; cbn [negb]; [intros ->; exists mis; auto|apply HP]. }
    assert (NOM : existsb (Z.eqb mis) (filter (fun y => negb (y =? mis)) zs) = false).
    { apply not_true_iff_false. intros X. apply existsb_exists in X as (y & Hy & Ey). apply filter_In in Hy as (_ & Hy). apply Z.eqb_eq in Ey. subst y. rewrite Z.eqb_refl in Hy. discriminate Hy. }
    each_func HF.
    - destruct (out_sum _ _ _ _ 0 HD) as (-> & ->); [cbn; auto|]. fold U. unfold sum_spec. rewrite E1. intros ->. destruct (existsb _ zs); cbn [negb].
      + rewrite IU. eexists. split; reflexivity.
      + rewrite TOT. eexists. split; [reflexivity|]. apply wrap_sum64.
    - destruct (out_min _ _ _ _ 2 HD) as (-> & _); [cbn; auto|]. rewrite HT. apply MIN; [exact HZ|]. intros s. now apply least_int.
    - destruct (out_min _ _ _ _ 3 HD) as (-> & _); [cbn; auto|]. rewrite HT. apply MIN; [exact HZ|]. intros s. now apply greatest_int.
    - destruct (out_sum _ _ _ _ 50 HD) as (-> & ->); [cbn; auto|]. fold U. unfold nansum_spec. rewrite E2. intros ->. rewrite TOT. eexists. split; [reflexivity|]. apply wrap_sum64.
    - destruct (out_min _ _ _ _ 52 HD) as (-> & _); [cbn; auto|]. rewrite HT. unfold nanmin_spec. rewrite E2. intros H.
      apply (MIN _ lowest) in H; [|now apply filter_range|intros s; now apply least_int]. rewrite NOM in H. exact H.
    - destruct (out_min _ _ _ _ 53 HD) as (-> & _); [cbn; auto|]. rewrite HT. unfold nanmin_spec. rewrite E2. intros H.
      apply (MIN _ highest) in H; [|now apply filter_range|intros s; now apply greatest_int]. rewrite NOM in H. exact H.
  Qed.

  (** float64 *)
  Lemma oks_float xs b : forallb (ok A (CF b)) (map R xs) = negb (existsb (isnan A) xs) /\ filter (ok A (CF b)) (map R xs) = map R (filter (fun x => negb (isnan A x)) xs).
  Proof. induction xs as [|x xs (E1 & E2)]; [split; reflexivity|]. cbn [map forallb existsb filter ok fval]. rewrite E1, E2. destruct (isnan A x); split; reflexivity. Qed.
  Lemma total_float b xs : forall s, fold_left (fun s x => add A (CF b) s (conv A (CF b) x)) (map R xs) (R s) = R (fold_left (fun s x => fadd A (CF b) s (cast A (CF b) x)) xs s).
  Proof. induction xs as [|x xs IH]; intros s; [reflexivity|]. cbn [map fold_left add conv fval]. apply IH. Qed.
  Theorem floats_right xs r :
    (group_spec A 0 12 (map R xs) r -> r = R (if existsb (isnan A) xs then fnanv A (CF 8) else fold_left (fun s x => fadd A (CF 8) s (cast A (CF 8) x)) xs (fzero A (CF 8)))) /\
    (group_spec A 0 11 (map R xs) r -> r = R (if existsb (isnan A) xs then fnanv A (CF 4) else cast A (CF 4) (fold_left (fun s x => fadd A (CF 8) s (cast A (CF 8) x)) xs (fzero A (CF 8))))) /\
    (group_spec A 1 12 (map R xs) r -> r = R (if existsb (isnan A) xs || (length xs =? 0)%nat then fnanv A (CF 8)
       else fdivn A (CF 8) (fold_left (fun s x => fadd A (CF 8) s (cast A (CF 8) x)) xs (fzero A (CF 8))) (Z.of_nat (length xs)))) /\
    (group_spec A 2 12 (map R xs) r -> if existsb (isnan A) xs || (length xs =? 0)%nat then r = R (fnanv A (CF 8))
       else exists x, r = R (cast A (CF 8) x) /\ In x xs /\ forall y, In y xs -> fltb A (cast A (CF 8) y) (cast A (CF 8) x) = false).
  Proof.
    unfold group_spec. cbn [stored out_dtype floating existsb orb Z.eqb Pos.eqb]. destruct (oks_float xs 8) as (E1 & _), (oks_float xs 4) as (E3 & _).
    unfold sum_spec, sumf_spec, mean_spec, min_spec, total. rewrite E1, E3, map_length. split; [|split; [|split]].
    - intros ->. destruct (existsb _ xs); [reflexivity|]. cbn [negb]. apply total_float.
    - intros ->. destruct (existsb _ xs); [reflexivity|]. cbn [negb]. unfold zero_of, D64. rewrite total_float. reflexivity.
    - intros ->. destruct (existsb _ xs); [reflexivity|]. destruct (length xs =? 0)%nat; [reflexivity|]. cbn [negb andb orb]. unfold zero_of. rewrite total_float. reflexivity.
    - destruct (existsb _ xs); [intros ->; reflexivity|]. destruct (length xs =? 0)%nat; [intros ->; reflexivity|]. cbn [negb andb orb]. intros (HI & HL). rewrite map_map in HI, HL.
      apply in_map_iff in HI as (x & <- & Hx). exists x. split; [reflexivity|]. split; [exact Hx|]. intros y Hy. exact (HL _ (in_map _ _ _ Hy)).
  Qed.
End Ints.
