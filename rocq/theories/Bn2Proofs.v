(** Proofs about NanInfCountFromSort and BinsToCutsSorted from their arguments to their results. *)
From Verif Require Import Base Mem MemLemmas Par Num AllModel AllSpec All5Proofs EaModel EaSpec Ea2Proofs BnModel BnSpec BnProofs.
From Verif Require BinsModel BinsSpec BinsProofs Bins2Proofs Bins3Proofs WnModel.
Local Open Scope Z_scope.

Lemma mlp_right {X} (zero : X) n (a : arg X) : 0 <= n -> arg_ok n a -> one_by_one a -> mlp_read a = Done (arg_vals zero a).
Proof.
  intros HN OK H1. unfold mlp_read. destruct (WnModel.contiguous a) eqn:C.
  - assert (G : gapless a) by (unfold WnModel.contiguous in C; unfold gapless; lia).
    assert ((a_step a =? 1) || (a_len a <=? 0) = true) as ->. { destruct OK as (HL & _). unfold WnModel.contiguous in C. unfold one_by_one in H1. lia. }
    now rewrite (read_arg_right zero n a HN OK G).
  - destruct OK as (HL & _ & HI). unfold WnModel.copy_arg, arg_vals. rewrite (all_some_map _ (fun i => nth (Z.to_nat (a_start a + Z.of_nat i * a_step a)) (a_mem a) zero)); [reflexivity|]. intros i Hi. apply in_seq in Hi. specialize (HI (Z.of_nat i) ltac:(lia)).
    unfold zrd. rewrite (proj2 (Z.leb_le 0 (a_start a + Z.of_nat i * a_step a))) by lia. destruct (nth_error_lt (a_mem a) (Z.to_nat (a_start a + Z.of_nat i * a_step a)) ltac:(lia)) as (x & Ex). rewrite Ex. f_equal. symmetry. now apply nth_error_nth.
Qed.

(** ** Counting *)
Lemma count_split {X} (p : X -> bool) l : exists a b, l = a ++ b /\ length a = BinsModel.count_while p l /\ Forall (fun x => p x = true) a /\ (forall x b', b = x :: b' -> p x = false).
Proof.
  induction l as [|x l (a & b & E & L & F & H)]; [exists [], []; repeat split; auto; discriminate|]. cbn. destruct (p x) eqn:P.
  - exists (x :: a), b. split; [now rewrite E|]. split; [cbn; now rewrite L|]. split; [now constructor|exact H].
  - exists [], (x :: l). split; [reflexivity|]. split; [reflexivity|]. split; [constructor|]. intros y b' [= <- <-]. exact P.
Qed.
Lemma count_none {X} (p : X -> bool) l : (forall x, In x l -> p x = false) -> BinsModel.count_while p l = 0%nat.
Proof. destruct l as [|x l]; [reflexivity|]. intros H. cbn. now rewrite (H x (or_introl eq_refl)). Qed.
Lemma count_map {X Y} (f : X -> Y) p q l : (forall x, In x l -> p (f x) = q x) -> BinsModel.count_while p (map f l) = BinsModel.count_while q l.
Proof. induction l as [|x l IH]; [reflexivity|]. intros H. cbn. rewrite (H x (or_introl eq_refl)), IH; [reflexivity|]. intros; apply H; now right. Qed.

Definition in_sorted_order (vs : list fl) : Prop := forall i j a b, (i < j)%nat -> nth_error vs i = Some a -> nth_error vs j = Some b -> BinsSpec.num_le a b = true.
Lemma sorted_split a b x y : in_sorted_order (a ++ b) -> In x a -> In y b -> BinsSpec.num_le x y = true.
Proof.
  intros H Hx Hy. apply In_nth_error in Hx as (i & Hi). apply In_nth_error in Hy as (j & Hj). assert (i < length a)%nat by (apply nth_error_Some; congruence).
  apply (H i (length a + j)%nat); [lia|rewrite nth_error_app1 by lia; exact Hi|]. rewrite nth_error_app2 by lia. replace (length a + j - length a)%nat with j by lia. exact Hj.
Qed.
Lemma sorted_left a b : in_sorted_order (a ++ b) -> in_sorted_order a.
Proof. intros H i j x y L Hi Hj. apply (H i j); auto; rewrite nth_error_app1; auto; apply nth_error_Some; congruence. Qed.
Lemma many_app x a b : how_many x (a ++ b) = how_many x a + how_many x b.
Proof. unfold how_many. rewrite filter_app, app_length. lia. Qed.
Lemma many_none x vs : (forall v, In v vs -> match x, v with NaN, NaN | NInf, NInf | PInf, PInf => False | _, _ => True end) -> how_many x vs = 0.
Proof. intros H. unfold how_many. induction vs as [|v vs IH]; [reflexivity|]. cbn. pose proof (H v (or_introl eq_refl)) as Q. assert (Q2 := IH (fun u Hu => H u (or_intror Hu))). clear H IH. destruct x, v; try contradiction Q; exact Q2. Qed.
Lemma many_all x vs : match x with Fin _ => False | _ => True end -> (forall v, In v vs -> v = x) -> how_many x vs = Z.of_nat (length vs).
Proof.
  intros HX H. unfold how_many. f_equal. induction vs as [|v vs IH]; [reflexivity|]. cbn. rewrite (H v (or_introl eq_refl)). assert (Q := IH (fun u Hu => H u (or_intror Hu))).
  destruct x; try contradiction HX; cbn; now rewrite Q.
Qed.
Lemma many_perm x a b : Permutation a b -> how_many x a = how_many x b.
Proof. unfold how_many. induction 1; cbn; try lia; destruct x; repeat match goal with |- context [match ?v with _ => _ end] => destruct v end; cbn; lia. Qed.

Lemma nan_inf_counted vs n p m : in_sorted_order vs -> BinsModel.NanInfCount vs = (n, p, m) -> Z.of_nat n = how_many NaN vs /\ Z.of_nat p = how_many PInf vs /\ Z.of_nat m = how_many NInf vs.
Proof.
  intros Hs E. unfold BinsModel.NanInfCount in E. cbv zeta in E.
  destruct (count_split (fun v => negb (feq v v)) (rev vs)) as (P1 & R1 & E1 & L1 & F1 & H1). rewrite <- L1 in E. rewrite E1 in E.
  rewrite skipn_app, skipn_all, Nat.sub_diag in E. cbn [skipn app] in E.
  destruct (count_split (fun v => feq v PInf) R1) as (P2 & R2 & E2 & L2 & F2 & H2). rewrite <- L2 in E. subst R1.
  assert (V : vs = rev R2 ++ rev P2 ++ rev P1). { rewrite <- (rev_involutive vs), E1, !rev_app_distr. now rewrite <- app_assoc. }
  assert (K : firstn (length vs - length P1 - length P2) vs = rev R2). { rewrite V at 2. replace (length vs - length P1 - length P2)%nat with (length (rev R2)). - now rewrite firstn_app, firstn_all, Nat.sub_diag, app_nil_r. - rewrite V, !app_length, !rev_length. lia. }
  rewrite K in E. destruct (count_split (fun v => feq v NInf) (rev R2)) as (Q1 & Q2 & E3 & L3 & F3 & H3). rewrite <- L3 in E. injection E as <- <- <-.
  rewrite Forall_forall in F1, F2, F3.
  assert (A1 : forall v, In v (rev P1) -> v = NaN). { intros v Hv. apply in_rev in Hv. apply F1 in Hv. destruct v; auto; cbn in Hv; try discriminate Hv. rewrite Z.eqb_refl in Hv. discriminate Hv. }
  assert (A2 : forall v, In v (rev P2) -> v = PInf). { intros v Hv. apply in_rev in Hv. apply F2 in Hv. destruct v; auto; discriminate Hv. }
  assert (A3 : forall v, In v Q1 -> v = NInf). { intros v Hv. apply F3 in Hv. destruct v; auto; discriminate Hv. }
  (* what is left of the back has neither NaN nor infinity *)
  assert (S2 : in_sorted_order (rev R2 ++ rev P2)). { apply (sorted_left _ (rev P1)). rewrite <- app_assoc, <- V. exact Hs. }
  assert (B1 : forall v, In v (rev R2 ++ rev P2) -> v <> NaN).
  { rewrite <- rev_app_distr. intros v Hv ->. destruct (P2 ++ R2) as [|x R] eqn:ER; [contradiction|]. specialize (H1 x R eq_refl). rewrite <- rev_app_distr, ER in S2. cbn [rev] in Hv, S2. apply in_app_iff in Hv as [Hv | [-> | []]]; [|discriminate H1].
    pose proof (sorted_split _ _ NaN x S2 Hv (or_introl eq_refl)) as Q. destruct x; discriminate. }
  assert (B2 : forall v, In v (rev R2) -> v <> PInf /\ v <> NaN).
  { intros v Hv. split; [|apply B1; apply in_or_app; now left]. intros ->. apply sorted_left in S2. assert (Q : forall x, In x (rev R2) -> x <> NaN) by (intros x Hx; apply B1; apply in_or_app; now left). destruct R2 as [|x R]; [contradiction|]. specialize (H2 x R eq_refl). cbn [rev] in Hv, S2, Q. apply in_app_iff in Hv as [Hv | [-> | []]]; [|discriminate H2].
    pose proof (sorted_split _ _ PInf x S2 Hv (or_introl eq_refl)) as QQ. assert (x <> NaN) by (apply Q; apply in_or_app; right; now left). destruct x; try discriminate; congruence. }
  assert (B3 : forall v, In v Q2 -> v <> NInf /\ v <> PInf /\ v <> NaN).
  { intros v Hv. assert (In v (rev R2)) as HR by (rewrite E3; apply in_or_app; now right). destruct (B2 v HR). split; [|auto]. intros ->. apply sorted_left in S2. rewrite E3 in S2.
    destruct Q2 as [|x Q]; [contradiction|]. specialize (H3 x Q eq_refl). destruct Hv as [-> |Hv]; [discriminate H3|]. replace (Q1 ++ x :: Q) with ((Q1 ++ [x]) ++ Q) in S2 by (rewrite <- app_assoc; reflexivity).
    pose proof (sorted_split _ _ x NInf S2 ltac:(apply in_or_app; right; now left) Hv) as Q3. destruct x; discriminate. }
  rewrite V, E3, !many_app. rewrite <- (rev_length P1), <- (rev_length P2).
  rewrite (many_all NaN (rev P1)), (many_all PInf (rev P2)), (many_all NInf Q1) by auto.
  assert (N : forall x l, x <> Fin 0 -> (forall v, In v l -> v <> x) -> how_many x l = 0). { intros x l _ H. apply many_none. intros v Hv. specialize (H v Hv). destruct x, v; auto. }
  rewrite (N NaN Q1), (N NaN Q2), (N NaN (rev P2)), (N PInf Q1), (N PInf Q2), (N PInf (rev P1)), (N NInf Q2), (N NInf (rev P2)), (N NInf (rev P1)); try discriminate; try lia;
    intros v Hv; first [rewrite (A1 v Hv); discriminate|rewrite (A2 v Hv); discriminate|rewrite (A3 v Hv); discriminate|apply (B3 v Hv)].
Qed.

Section Counts.
  Context (unit : Z) (round : Z -> Z -> Z).
  Lemma seen_float d v : floating d = true -> 0 <= d <= 13 -> seen unit d v = v.
  Proof. intros H HD. each_dtype HD; try discriminate H; now destruct v. Qed.
  (** integers: the invalid one *)
  Lemma seen_int d z : floating d = false -> 1 <= d <= 13 -> seen unit d (Fin z) = if z =? default_of d * unit then if Z.odd d then NInf else PInf else Fin z.
  Proof. intros H HD. assert (HD' : 0 <= d <= 13) by lia. revert HD H. each_dtype HD'; intros HD H; try lia; try discriminate H; reflexivity. Qed.
  Lemma counts_seen d vs : 0 <= d <= 13 -> holds unit round d vs -> counts unit d vs = let '(n, p, m) := BinsModel.NanInfCount (map (seen unit d) vs) in (Z.of_nat n, Z.of_nat p, Z.of_nat m).
  Proof.
    intros HD HH. unfold holds in HH. rewrite Forall_forall in HH. destruct (floating d) eqn:Fl.
    - rewrite (map_ext _ (fun v => v)), map_id by (intros v; now apply seen_float). assert (is_float d = true) as E by (clear HH; revert Fl; each_dtype HD; intros Fl; try discriminate Fl; reflexivity). unfold counts. now rewrite E.
    - assert (is_float d = false) as E by (clear HH; revert Fl; each_dtype HD; intros Fl; try discriminate Fl; reflexivity). unfold counts. rewrite E.
      assert (HF : forall v, In v vs -> exists z, v = Fin z). { intros v Hv. specialize (HH v Hv). destruct v; eauto; discriminate HH. }
      unfold BinsModel.NanInfCount. cbv zeta. rewrite map_length, <- map_rev.
      assert (N1 : BinsModel.count_while (fun v => negb (feq v v)) (map (seen unit d) (rev vs)) = 0%nat).
      { apply count_none. intros x Hx. apply in_map_iff in Hx as (v & <- & Hv). apply in_rev in Hv. destruct (HF v Hv) as (z & ->). rewrite feq_refl_nan. unfold seen. destruct (int_type d) as [((lo, hi), mis)|]; [|reflexivity]. destruct ((0 <? d) && _), (unsigned d); reflexivity. }
      rewrite N1. cbn [skipn]. rewrite Nat.sub_0_r. destruct (Z.ltb_spec 0 d) as [H0|H0].
      + destruct (Z.odd d) eqn:Ev.
        * assert (N2 : BinsModel.count_while (fun v => feq v PInf) (map (seen unit d) (rev vs)) = 0%nat).
          { apply count_none. intros x Hx. apply in_map_iff in Hx as (v & <- & Hv). apply in_rev in Hv. destruct (HF v Hv) as (z & ->). rewrite seen_int, Ev by (auto; lia). now destruct (z =? default_of d * unit). }
          rewrite N2, Nat.sub_0_r, firstn_all2 by (rewrite map_length; lia). f_equal. f_equal. symmetry. apply count_map. intros v Hv. destruct (HF v Hv) as (z & ->). rewrite seen_int, Ev by (auto; lia). cbn. now destruct (z =? default_of d * unit).
        * rewrite (count_map (seen unit d) (fun v => feq v PInf) (fun v => feq v (Fin (default_of d * unit)))). 2: { intros v Hv. apply in_rev in Hv. destruct (HF v Hv) as (z & ->). rewrite seen_int, Ev by (auto; lia). cbn. now destruct (z =? default_of d * unit). }
          rewrite (count_none (fun v => feq v NInf)); [reflexivity|]. intros x Hx. assert (In x (map (seen unit d) vs)) as Hx'. { rewrite <- (firstn_skipn (length vs - BinsModel.count_while (fun v => feq v (Fin (default_of d * unit))) (rev vs))). apply in_or_app. now left. }
          apply in_map_iff in Hx' as (v & <- & Hv). destruct (HF v Hv) as (z & ->). rewrite seen_int, Ev by (auto; lia). now destruct (z =? default_of d * unit).
      + assert (d = 0) by lia. subst d. rewrite !count_none; [reflexivity| |]; intros x Hx.
        * assert (In x (map (seen unit 0) vs)) as Hx'. { rewrite <- (firstn_skipn (length vs - 0) (map (seen unit 0) vs)). apply in_or_app. left. exact Hx. } apply in_map_iff in Hx' as (v & <- & Hv). destruct (HF v Hv) as (z & ->). reflexivity.
        * apply in_map_iff in Hx as (v & <- & Hv). apply in_rev in Hv. destruct (HF v Hv) as (z & ->). reflexivity.
  Qed.

  Lemma value_seen d vals i : 0 <= i < Z.of_nat (length vals) -> BinsSpec.value_at (map (seen unit d) vals) i = seen unit d (BinsSpec.value_at vals i).
  Proof. intros H. unfold BinsSpec.value_at. rewrite !zrd_some by lia. rewrite nth_error_map. destruct (nth_error_lt vals (Z.to_nat i) ltac:(lia)) as (x & ->). reflexivity. Qed.
  Lemma value_map vals n : n = length vals -> map (BinsSpec.value_at vals) (map Z.of_nat (seq 0 n)) = vals.
  Proof.
    intros ->. rewrite map_map. apply list_ext. intros i. rewrite nth_error_map. destruct (Nat.lt_ge_cases i (length vals)) as [H|H].
    - rewrite (nth_error_nth' _ 0%nat) by (rewrite seq_length; lia). rewrite seq_nth by lia. cbn [option_map plus]. unfold BinsSpec.value_at. rewrite zrd_some by lia. rewrite Nat2Z.id. destruct (nth_error_lt vals i H) as (x & ->). reflexivity.
    - rewrite (proj2 (nth_error_None _ _)) by (rewrite seq_length; lia). symmetry. now apply nth_error_None.
  Qed.
  Lemma sorts_facts idx vs : sorts idx vs -> (forall i, In i (arg_vals 0 idx) -> 0 <= i < Z.of_nat (length vs)) /\ in_sorted_order (map (BinsSpec.value_at vs) (arg_vals 0 idx)) /\ Permutation (map (BinsSpec.value_at vs) (arg_vals 0 idx)) vs.
  Proof.
    intros (_ & _ & P & S1). split; [|split].
    - intros i Hi. apply (Permutation_in _ P) in Hi. apply in_map_iff in Hi as (k & <- & Hk). apply in_seq in Hk. lia.
    - intros i j a b L Ea Eb. rewrite nth_error_map in Ea, Eb. destruct (nth_error (arg_vals 0 idx) i) eqn:Ei; [|discriminate]. destruct (nth_error (arg_vals 0 idx) j) eqn:Ej; [|discriminate]. injection Ea as <-. injection Eb as <-. eapply S1; eauto.
    - rewrite <- (value_map vs (length vs) eq_refl) at 2. now apply Permutation_map.
  Qed.
  Lemma index_types d : In d [5; 7; 9] -> index_type d = true.
  Proof. cbn. intros [<- | [<- | [<- | []]]]; reflexivity. Qed.
  Theorem counts_call a idx : 0 <= a_dtype a <= 13 -> 0 <= a_len a < 2 ^ 31 -> arg_ok (a_len a) a -> holds unit round (a_dtype a) (arg_vals NaN a) ->
    one_by_one a -> one_by_one idx -> a_len idx = a_len a -> sorts idx (map (seen unit (a_dtype a)) (arg_vals NaN a)) ->
    let vs := map (seen unit (a_dtype a)) (arg_vals NaN a) in
    NanInfCountFromSort unit a idx = Done (Some (how_many NaN vs, how_many PInf vs, how_many NInf vs)).
  Proof.
    intros HD HL OK HH O1 O2 LI HS vs. unfold NanInfCountFromSort. rewrite (mlp_right NaN (a_len a) a ltac:(lia) OK O1). cbn [obind]. destruct HS as (HT & OKI & P & S1) eqn:HS'. clear HS'.
    assert (LV : Z.of_nat (length (arg_vals NaN a)) = a_len a) by (rewrite (arg_vals_length NaN _ a OK); lia).
    rewrite (mlp_right 0 (Z.of_nat (length (map (seen unit (a_dtype a)) (arg_vals NaN a)))) idx) by (auto; lia). cbn [obind]. rewrite LI, Z.eqb_refl. cbn [negb]. rewrite (index_types _ HT). destruct (value_types _ HD) as (T & -> & _).
    destruct (sorts_facts idx _ HS) as (HB & SO & PM). rewrite map_length in HB.
    rewrite (all_some_map _ (BinsSpec.value_at (arg_vals NaN a))). 2: { intros i Hi. apply HB in Hi. unfold BinsSpec.value_at. rewrite zrd_some by lia. destruct (nth_error_lt (arg_vals NaN a) (Z.to_nat i) ltac:(lia)) as (x & ->). reflexivity. }
    cbn [undef obind]. rewrite counts_seen; auto.
    2: { unfold holds in *. rewrite Forall_forall in HH |- *. intros v Hv. apply HH. apply in_map_iff in Hv as (i & <- & Hi). apply HB in Hi. unfold BinsSpec.value_at. rewrite zrd_some by lia. destruct (nth_error_lt (arg_vals NaN a) (Z.to_nat i) ltac:(lia)) as (x & Ex). rewrite Ex. now apply nth_error_In in Ex. }
    rewrite map_map. rewrite (map_ext_in _ (BinsSpec.value_at (map (seen unit (a_dtype a)) (arg_vals NaN a)))) by (intros i Hi; symmetry; apply value_seen; now apply HB).
    destruct (BinsModel.NanInfCount _) as ((n, p), m) eqn:E. destruct (nan_inf_counted _ n p m SO E) as (-> & -> & ->). rewrite !(many_perm _ _ _ PM). fold vs.
    destruct (Z.leb_spec (2 ^ 31) (how_many NInf vs)); [|reflexivity]. exfalso. assert (how_many NInf vs <= Z.of_nat (length vs)). { unfold how_many. apply inj_le. clear. induction vs as [|v l IH]; [cbn; lia|]. cbn [filter length]. destruct v; cbn [length]; lia. } unfold vs in *. rewrite map_length in *. lia.
  Qed.

  (** ** Cutting *)
  Lemma below_ext v1 v2 c ix out : (forall i, In i ix -> zrd v1 i = zrd v2 i) -> BinsModel.mbs_below v1 c ix out = BinsModel.mbs_below v2 c ix out.
  Proof. revert out. induction ix as [|i ix IH]; [reflexivity|]. intros out H. cbn. rewrite <- (H i (or_introl eq_refl)). destruct (zrd v1 i) as [v|]; [|reflexivity]. destruct (flt v c); [|reflexivity]. destruct (zwr out i 1); [|reflexivity]. apply IH. intros; apply H; now right. Qed.
  Lemma below_rest vals c ix out out' ix' : BinsModel.mbs_below vals c ix out = Some (out', ix') -> incl ix' ix.
  Proof. revert out. induction ix as [|i ix IH]; cbn; intros out E; [injection E as <- <-; intros x []|]. destruct (zrd vals i) as [v|]; [|discriminate]. destruct (flt v c); [|injection E as <- <-; intros x Hx; exact Hx]. destruct (zwr out i 1); [|discriminate]. apply incl_tl. eapply IH; eauto. Qed.
  Lemma mid_ext v1 v2 edges ix bin c out : (forall i, In i ix -> zrd v1 i = zrd v2 i) -> BinsModel.mbs_mid v1 edges bin c ix out = BinsModel.mbs_mid v2 edges bin c ix out.
  Proof.
    revert bin c out. induction ix as [|i ix IH]; [reflexivity|]. intros bin c out H. cbn [BinsModel.mbs_mid]. rewrite <- (H i (or_introl eq_refl)). assert (IH' := fun bin c out => IH bin c out (fun j Hj => H j (or_intror Hj))).
    destruct (zrd v1 i) as [v|]; [|reflexivity]. destruct (fle v c). { destruct (zwr out i (bin + 1)); auto. }
    destruct (BinsModel.mbs_next edges (S (length edges)) v bin c) as [(bin', c')|]; [|reflexivity]. destruct (_ <=? bin'); [reflexivity|]. destruct (zwr out i (bin' + 1)); auto.
  Qed.
  Lemma sorted_ext v1 v2 edges sidx n p m n' p' out : (n + p = n' + p')%nat -> (forall i, In i (skipn m (firstn (length sidx - (n + p)) sidx)) -> zrd v1 i = zrd v2 i) ->
    BinsModel.MakeBinsSorted v1 edges sidx n p m out = BinsModel.MakeBinsSorted v2 edges sidx n' p' m out.
  Proof.
    intros E H. unfold BinsModel.MakeBinsSorted. cbv zeta. rewrite <- E. set (mid := skipn m (firstn (length sidx - (n + p)) sidx)) in *.
    destruct (writes (map (fun i => (i, 0)) (firstn m sidx)) out) as [o1|]; [|reflexivity]. destruct (writes (map (fun i => (i, 0)) (rev (skipn (length sidx - (n + p)) sidx))) o1) as [o2|]; [|reflexivity]. destruct (zrd edges 0) as [e0|]; [|reflexivity].
    rewrite (below_ext v1 v2) by exact H. destruct (BinsModel.mbs_below v2 (Fin e0) mid o2) as [(o3, ix)|] eqn:EB; [|reflexivity]. apply below_rest in EB. assert (H2 : forall i, In i ix -> zrd v1 i = zrd v2 i) by (intros i Hi; apply H; now apply EB).
    destruct ix as [|i ix]; [reflexivity|]. rewrite (H2 i (or_introl eq_refl)). destruct (zrd v2 i) as [v|]; [|reflexivity]. destruct (feq v (Fin e0) && _); [destruct (zrd edges 1); [|reflexivity]|]; apply mid_ext; exact H2.
  Qed.
  Theorem sorted_call junk a bins idx mode : 0 <= a_dtype a <= 13 -> 0 <= a_len a < 2 ^ 62 -> arg_ok (a_len a) a -> gapless a -> holds unit round (a_dtype a) (arg_vals NaN a) ->
    a_dtype bins = 12 -> 2 <= a_len bins -> arg_ok (a_len bins) bins -> gapless bins -> BinsSpec.strictly_ascending (arg_vals 0 bins) ->
    let vs := map (seen unit (a_dtype a)) (arg_vals NaN a) in
    gapless idx -> sorts idx vs -> - 2 ^ 31 <= mode < 2 ^ 31 ->
    (forall z, In (Fin z) vs -> round 8 z = z /\ z <= nth (Z.to_nat (a_len bins) - 1) (arg_vals 0 bins) 0) ->
    exists r, BinsToCutsSorted unit round junk a bins idx (how_many NaN vs, how_many PInf vs, how_many NInf vs) mode = Done (Some (small_dtype (a_len bins), r)) /\
      Z.of_nat (length r) = a_len a /\ forall i v, nth_error (arg_vals NaN a) i = Some v -> exists x, nth_error r i = Some x /\ BinsSpec.sorted_bin (arg_vals 0 bins) (seen unit (a_dtype a) v) x.
  Proof.
    intros HD HL OK G HH ED EL EOK EG Ha vs GI HS HM HV.
    assert (LV : length vs = Z.to_nat (a_len a)) by (unfold vs; rewrite map_length, (arg_vals_length NaN _ a OK); lia).
    assert (LB : length (arg_vals 0 bins) = Z.to_nat (a_len bins)) by apply (arg_vals_length 0 _ bins EOK).
    destruct (sorts_facts idx vs HS) as (HB & SO & PM). destruct HS as (HT & OKI & P & S1).
    assert (HN : 0 <= how_many NaN vs + how_many PInf vs + how_many NInf vs <= a_len a /\ 0 <= how_many NaN vs /\ 0 <= how_many PInf vs /\ 0 <= how_many NInf vs).
    { assert (Q : how_many NaN vs + how_many PInf vs + how_many NInf vs <= Z.of_nat (length vs)). { clear. unfold how_many. induction vs as [|v l IH]; [cbn; lia|]. cbn [filter length]. destruct v; cbn [length]; lia. }
      unfold how_many in *. lia. }
    assert (I64 : forall z, 0 <= z <= a_len a -> int64_ok z = true) by (intros z Hz; unfold int64_ok; rewrite (proj2 (Z.leb_le _ _)), (proj2 (Z.ltb_lt _ _)) by lia; reflexivity).
    unfold BinsToCutsSorted. rewrite int32_right by exact HM. rewrite !I64 by lia. rewrite ED. cbn [negb andb Z.eqb Pos.eqb]. rewrite (index_types _ HT). destruct (value_types _ HD) as (T & -> & _).
    rewrite (read_arg_right NaN (a_len a) a) by (auto; lia). rewrite (read_arg_right 0 (a_len bins) bins) by (auto; lia). cbn [undef obind].
    (* the index, read without its stride *)
    assert (RI : read_arg (mkArg (a_dtype idx) (a_mem idx) (a_start idx) 1 (a_len a)) = Some (arg_vals 0 idx)).
    { rewrite <- (read_arg_right 0 (a_len a) idx); [|lia| |exact GI]. 2: { rewrite LV, Z2Nat.id in OKI by lia. exact OKI. } unfold read_arg. cbn [a_start a_mem a_len a_step]. destruct OKI as (LI & _). rewrite LV, Z2Nat.id in LI by lia. rewrite LI. reflexivity. }
    rewrite RI. cbn [undef obind].
    assert (((how_many NaN vs + how_many PInf vs <? 0) || (how_many NInf vs <? 0) || (a_len a <? how_many NaN vs + how_many PInf vs) || (a_len a <? how_many NInf vs)) = false) as -> by lia.
    destruct (BinsModel.NanInfCount (map (BinsSpec.value_at vs) (arg_vals 0 idx))) as ((n, p), m) eqn:EC. destruct (nan_inf_counted _ n p m SO EC) as (Q1 & Q2 & Q3). rewrite (many_perm _ _ _ PM) in Q1. rewrite (many_perm _ _ _ PM) in Q2. rewrite (many_perm _ _ _ PM) in Q3. rewrite <- Q1, <- Q2, <- Q3. rewrite Nat2Z.id. rewrite <- Nat2Z.inj_add, Nat2Z.id.
    destruct (Bins3Proofs.make_bins_sorted vs (arg_vals 0 bins) (arg_vals 0 idx) n p m (repeat junk (length (arg_vals NaN a)))) as (r & Er & Lr & Hr); auto.
    { rewrite repeat_length. unfold vs. now rewrite map_length. } { lia. }
    { intros z el Hz Hel. rewrite LB in Hel. apply HV in Hz as (_ & Hz). now rewrite (nth_error_nth _ _ 0 Hel) in Hz. }
    assert (MID : forall i, In i (skipn m (firstn (length (arg_vals 0 idx) - (n + p + 0)) (arg_vals 0 idx))) -> zrd (map (to_double unit round) (arg_vals NaN a)) i = zrd vs i).
    { intros i Hi. destruct (Bins3Proofs.nan_inf_count _ n p m SO EC) as (A & M & B & EV & LA & LBB & _ & FM & _).
      assert (LX : length (arg_vals 0%Z idx) = (length A + length M + length B)%nat) by (rewrite <- (map_length (BinsSpec.value_at vs)), EV, !app_length; lia).
      assert (Hin : In i (arg_vals 0 idx)) by (rewrite <- (firstn_skipn (length (arg_vals 0 idx) - (n + p + 0)) (arg_vals 0 idx)); apply in_or_app; left; rewrite <- (firstn_skipn m (firstn _ _)); apply in_or_app; now right).
      assert (HM2 : In (BinsSpec.value_at vs i) M).
      { apply (in_map (BinsSpec.value_at vs)) in Hi. rewrite <- skipn_map, <- firstn_map, EV in Hi. replace (length (arg_vals 0%Z idx) - (n + p + 0))%nat with (length (A ++ M)) in Hi by (rewrite app_length; lia).
        rewrite app_assoc, firstn_app, firstn_all, Nat.sub_diag in Hi. cbn [firstn] in Hi. rewrite app_nil_r, <- LA, skipn_app, skipn_all, Nat.sub_diag in Hi. exact Hi. }
      apply HB in Hin. apply FM in HM2. unfold BinsSpec.value_at in HM2. unfold vs in HM2 |- *. rewrite zrd_some in HM2 by lia. rewrite !zrd_some by lia. rewrite nth_error_map in HM2. rewrite !nth_error_map.
      destruct (nth_error (arg_vals NaN a) (Z.to_nat i)) as [v|] eqn:Ev; [|reflexivity]. cbn [option_map] in HM2 |- *. f_equal.
      assert (Hse : In (seen unit (a_dtype a) v) vs) by (apply in_map; now apply nth_error_In in Ev).
      destruct v as [| |z|]; try discriminate HM2. assert (SZ : seen unit (a_dtype a) (Fin z) = Fin z). { unfold seen in HM2 |- *. destruct (int_type (a_dtype a)) as [((lo, hi), mis)|]; [|reflexivity]. destruct ((0 <? a_dtype a) && (z =? mis * unit)); [destruct (unsigned (a_dtype a)); discriminate HM2|reflexivity]. }
      rewrite SZ in *. apply HV in Hse as (Hse & _). cbn. now rewrite Hse. }
    rewrite (sorted_ext _ vs (arg_vals 0 bins) (arg_vals 0 idx) (n + p) 0 m n p) by (exact MID || lia).
    rewrite Er. cbn [undef obind]. exists r. rewrite out_dtype_right. split; [reflexivity|]. split; [rewrite Lr, LV; lia|]. intros i v Hi. apply Hr. unfold vs. rewrite nth_error_map, Hi. reflexivity.
  Qed.
End Counts.
