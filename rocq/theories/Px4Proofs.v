(** GroupByAllPack32 from its arguments to its results. *)
From Verif Require Import Base Mem MemLemmas GroupModel GroupSpec GroupProofs AccumSpec GrpxModel GrpxSpec AllModel AllSpec All3Proofs All4Proofs HeapModel HeapSpec PxModel PxSpec PxProofs Px2Proofs Px3Proofs.
Local Open Scope Z_scope.

Lemma index_read d k : PxSpec.index_ok d k -> read_key k = Some (key_vals k).
Proof.
  intros (_ & L & S & M & C). set (k' := mkKey 5 1 (k_mem k) (k_start k) (k_step k) (k_len k)).
  change (read_key k' = Some (key_vals k')). apply read_key_right; [|exact C]. unfold k', key_ok. cbn [k_dims k_dtype k_mem k_start k_step k_len].
  split; [reflexivity|]. split; [cbn; tauto|]. split; [exact L|]. split; [lia|].
  intros i Hi. destruct C as [-> | C]; [lia|]. replace i with 0 by lia. lia.
Qed.
Lemma combine_maps {X Y Z} (f : X -> Y) (g : X -> Z) l : combine (map f l) (map g l) = map (fun x => (f x, g x)) l.
Proof. induction l; cbn; congruence. Qed.

  Lemma func_small func d : supported func d = true -> as_func func = func /\ (if func <? 200 then In func per_group else In func rolling).
  Proof.
    intros H. destruct (supported_cases func d H) as [HF _]. apply in_app_or in HF. cbn [per_group rolling In] in HF. split.
    - apply as_func_small. lia.
    - destruct (Z.ltb_spec func 200); cbn [per_group rolling In]; lia.
  Qed.

Section All.
  Context {F : Type} (A : arith F) (OO : order_is_ok A) (m : xmachine F) (MO : xmachine_ok A m).
  Notation query := (query (F := F)).
  Definition xinf (q : query) : xinfo := mkXI (mkInfo (c_dtype (q_col q)) (c_vals (q_col q))) (Some (c_item (q_col q))).

  Lemma infos_right n qs : Forall (fun q => shaped n (q_col q)) qs -> build_infos (map (fun q => OArray (q_col q)) qs) = Done (map xinf qs).
  Proof.
    intros H. unfold build_infos. rewrite <- (map_map q_col OArray qs), (build_all n).
    - cbn [obind]. f_equal. rewrite !map_map, combine_maps, map_map. reflexivity.
    - apply Forall_forall. intros c Hc. apply in_map_iff in Hc as (q & <- & Hq). rewrite Forall_forall in H. auto.
  Qed.

  Context (w unique param : Z) (keys : list Z) (ncount igroup ifirst : list Z).
  Context (lay : layout (unique + 1) keys keys ncount igroup ifirst) (HU : 0 <= unique < 2 ^ 63 - 1) (W : 0 < w) (LK : Z.of_nat (length keys) < 2 ^ 63).
  Notation rows := (Z.of_nat (length keys)).

  Lemma lay_of (q : query) : shaped rows (q_col q) -> layout (unique + 1) keys (c_vals (q_col q)) ncount igroup ifirst.
  Proof. intros (_ & _ & L & _). destruct lay as (_ & L2). split; [lia|exact L2]. Qed.
  Lemma array_len id n : length (x_array m id n) = Z.to_nat n.
  Proof. unfold x_array. now rewrite !map_length, seq_length. Qed.
  Definition prepared (i : nat) (q : query) (t : xtask) : Prop :=
    exists nm, name_of (q_func q) = Some nm /\ xt_info t = xinf q /\ xt_kernel t = mkX nm (in_type (q_func q) (c_dtype (q_col q))) (out_type (q_func q) (c_dtype (q_col q))) /\
      xt_out t = pack_dtype (q_func q) (c_dtype (q_col q)) /\ xt_len t = (if q_func q <? 200 then unique + 1 else rows) /\ xt_low t = q_low q /\ xt_high t = q_high q /\ xt_id t = i /\
      x_fits (xt_info t) (xt_kernel t) (xt_out t) (xt_item t) = true.
  Lemma prepare_right qs i q : Forall (pack_ok A rows unique w param) qs -> nth_error qs i = Some q ->
    exists t, x_prepare rows (unique + 1) (map q_func qs) (map q_low qs) (map q_high qs) (i, xinf q) = Done t /\ prepared i q t.
  Proof.
    intros FA N. assert (Q : pack_ok A rows unique w param q) by (rewrite Forall_forall in FA; apply FA; eapply nth_error_In; eauto).
    destruct Q as (SH & SU & VO & R1 & R2 & _). unfold x_prepare. cbn [fst snd xi_info i_dtype xinf xi_item i_vals].
    rewrite !nth_error_map, N. cbn [option_map]. destruct (func_small _ _ SU) as [-> HF]. rewrite !as_int64_id by lia.
    destruct (table_right _ _ SU) as (nm & EN & ->). destruct (typed_in _ _ SU) as (T1 & T2 & T3).
    assert (FX : forall it, (in_type (q_func q) (c_dtype (q_col q)) = XText -> c_item (q_col q) <= it) ->
      x_fits (xinf q) (mkX nm (in_type (q_func q) (c_dtype (q_col q))) (out_type (q_func q) (c_dtype (q_col q)))) (pack_dtype (q_func q) (c_dtype (q_col q))) it = true).
    { intros it Hit. unfold x_fits. cbn [xinf xi_info i_dtype xi_item x_T x_U]. rewrite T1, T2. cbn [andb]. destruct (in_type (q_func q) (c_dtype (q_col q))); auto. apply Z.leb_le. auto. }
    destruct SH as (_ & _ & SL & _).
    destruct (Z.ltb_spec (q_func q) 200) as [L | L]; cbn [per_group rolling In] in HF.
    - destruct (Z.ltb_spec (unique + 1) 0); [lia|].
      destruct ((q_func q =? 105) || (q_func q =? 106)) eqn:E.
      + eexists. split; [reflexivity|]. exists nm. cbn [xt_info xt_kernel xt_out xt_len xt_low xt_high xt_id xt_item].
        rewrite (proj2 (Z.ltb_lt _ _) L). do 8 (split; [auto|]). apply FX. intros ET. apply T3 in ET as [_ ET]. cbn [In] in ET. apply orb_true_iff in E. rewrite !Z.eqb_eq in E. lia.
      + rewrite (proj2 (Z.leb_gt _ _) L). eexists. split; [reflexivity|]. exists nm. cbn [xt_info xt_kernel xt_out xt_len xt_low xt_high xt_id xt_item].
        rewrite (proj2 (Z.ltb_lt _ _) L). do 8 (split; [auto|]). apply FX. intros ET. apply T3 in ET as [ET _]. apply text_cases in ET. unfold like_resize_item, default_item.
        cbn [In] in ET. destruct ET as [ET | [ET | [ET | []]]]; rewrite <- ET; cbn; lia.
    - rewrite (proj2 (Z.eqb_neq _ 105)), (proj2 (Z.eqb_neq _ 106)), (proj2 (Z.leb_le _ _) L) by lia. cbn [orb]. rewrite SL, Z.eqb_refl. cbn [negb].
      eexists. split; [reflexivity|]. exists nm. cbn [xt_info xt_kernel xt_out xt_len xt_low xt_high xt_id xt_item].
      rewrite (proj2 (Z.ltb_ge _ _) L). do 8 (split; [auto|]). apply FX. intros _. lia.
  Qed.

  Lemma call_right i q t : pack_ok A rows unique w param q -> prepared i q t ->
    exists r, x_group_by_call A m w param igroup ifirst ncount t = Done r /\ pack_answers A m rows unique param keys q r.
  Proof.
    intros (SH & SU & _ & R1 & R2 & VA & PA) (nm & EN & E1 & E2 & E3 & E4 & E5 & E6 & E7 & FX). unfold x_group_by_call. rewrite FX. cbn [negb].
    rewrite E1, E2, E3, E4, E5, E6, E7. cbn [xinf xi_info i_vals]. pose proof (lay_of q SH) as LQ. destruct SH as (_ & _ & SL & _).
    assert (PA' : param_ok (Z.of_nat (length (c_vals (q_col q)))) w (q_func q) param) by (rewrite SL; exact PA).
    destruct (func_small _ _ SU) as [_ HF]. unfold pack_answers.
    destruct (q_func q <? 200).
    - destruct (groups_call A OO m MO w unique param keys (c_vals (q_col q)) ncount igroup ifirst LQ ltac:(lia) (q_func q) (c_dtype (q_col q)) nm (q_low q) (q_high q) (x_array m i (unique + 1))) as (res & -> & L & R); auto; try (rewrite array_len; lia); try lia.
      cbn [undef obind]. eexists. split; [reflexivity|]. cbn [fst snd]. split; auto. split; auto. rewrite L, array_len. lia.
    - destruct (rows_call A OO m MO w unique param keys (c_vals (q_col q)) ncount igroup ifirst LQ W (q_func q) (c_dtype (q_col q)) nm (q_low q) (q_high q) (x_array m i rows)) as (res & -> & L & R); auto; try (rewrite array_len; lia); try lia.
      cbn [undef obind]. eexists. split; [reflexivity|]. cbn [fst snd]. split; auto. split; auto. rewrite L, array_len. lia.
  Qed.

  Lemma bands_right q : pack_ok A rows unique w param q -> In (q_func q) [103; 104; 105; 106] ->
    multi_bands A m (xinf q) w param igroup ifirst ncount (q_func q) (unique + 1) (q_low q) (q_high q) = Done None \/
    exists r, multi_bands A m (xinf q) w param igroup ifirst ncount (q_func q) (unique + 1) (q_low q) (q_high q) = Done (Some [r]) /\ pack_answers A m rows unique param keys q r.
  Proof.
    intros (SH & SU & _ & R1 & R2 & VA & PA) HF. unfold multi_bands. cbn [xinf xi_info i_dtype i_vals]. pose proof (lay_of q SH) as LQ. destruct SH as (_ & _ & SL & _).
    assert (PA' : param_ok (Z.of_nat (length (c_vals (q_col q)))) w (q_func q) param) by (rewrite SL; exact PA).
    destruct (table_right _ _ SU) as (nm & EN & ->). destruct (typed_in _ _ SU) as (T1 & T2 & T3).
    set (cores := if q_high q - q_low q <? x_cores m then q_high q - q_low q else x_cores m). destruct (x_threads m && (0 <? cores)) eqn:EC; [right|now left].
    apply andb_true_iff in EC as [_ EC]. apply Z.ltb_lt in EC. destruct (Z.ltb_spec (unique + 1) 0); [lia|].
    assert (FX : forall it, x_fits (xinf q) (mkX nm (in_type (q_func q) (c_dtype (q_col q))) (out_type (q_func q) (c_dtype (q_col q)))) (pack_dtype (q_func q) (c_dtype (q_col q))) it = true).
    { intros it. unfold x_fits. cbn [xinf xi_info i_dtype xi_item x_T x_U]. rewrite T1, T2. cbn [andb]. destruct (in_type (q_func q) (c_dtype (q_col q))); auto.
      destruct (T3 eq_refl) as [_ T4]. cbn [In] in T4, HF. lia. }
    rewrite FX. cbn [negb].
    destruct (banded_call A OO m MO w unique param keys (c_vals (q_col q)) ncount igroup ifirst LQ ltac:(lia) (q_func q) (c_dtype (q_col q)) nm (q_low q) (q_high q) (x_array m 0 (unique + 1)) cores) as (res & -> & L & R); auto; try (rewrite array_len; lia); try lia.
    cbn [undef obind]. eexists. split; [reflexivity|]. unfold pack_answers. rewrite (proj2 (Z.ltb_lt (q_func q) 200)) by (cbn [In] in HF; lia). cbn [fst snd]. split; auto. split; auto. rewrite L, array_len. lia.
  Qed.

  Lemma all_right qs : Forall (pack_ok A rows unique w param) qs ->
    exists rs, obind (each (x_prepare rows (unique + 1) (map q_func qs) (map q_low qs) (map q_high qs)) (combine (seq 0 (length (map xinf qs))) (map xinf qs)))
      (fun ts => each (x_group_by_call A m w param igroup ifirst ncount) ts) = Done rs /\ Forall2 (pack_answers A m rows unique param keys) qs rs.
  Proof.
    intros FA. rewrite map_length, combine_map_r.
    assert (FA' : forall i q, In (i, q) (combine (seq 0 (length qs)) qs) -> nth_error qs i = Some q) by (intros i q H; destruct (in_combine_seq qs 0 i q H) as (j & -> & N); exact N).
    assert (P : exists ts, each (x_prepare rows (unique + 1) (map q_func qs) (map q_low qs) (map q_high qs)) (map (fun p => (fst p, xinf (snd p))) (combine (seq 0 (length qs)) qs)) = Done ts /\
      Forall2 (fun p t => prepared (fst p) (snd p) t) (combine (seq 0 (length qs)) qs) ts).
    { apply each_forall2 with (P := fun p x => x = (fst p, xinf (snd p))).
      - clear. induction (combine (seq 0 (length qs)) qs); constructor; auto.
      - intros [i q] x Hi ->. cbn [fst snd]. apply prepare_right; auto. }
    destruct P as (ts & -> & P). cbn [obind].
    assert (R : exists rs, each (x_group_by_call A m w param igroup ifirst ncount) ts = Done rs /\ Forall2 (fun p => pack_answers A m rows unique param keys (snd p)) (combine (seq 0 (length qs)) qs) rs).
    { apply each_forall2 with (P := fun p t => prepared (fst p) (snd p) t); auto. intros [i q] t Hi Ht. cbn [fst snd] in *.
      apply call_right with i; auto. rewrite Forall_forall in FA. apply FA. apply FA' in Hi. eapply nth_error_In; eauto. }
    destruct R as (rs & -> & R). exists rs. split; auto. apply forall2_snd in R. rewrite map_snd_combine in R; auto. now rewrite seq_length.
  Qed.
End All.

Theorem pack_right {F} (A : arith F) (m : xmachine F) d unique param keys p qs : order_is_ok A -> xmachine_ok A m -> packed_ok d unique keys p -> 0 <= unique < 2 ^ 63 - 1 -> Z.of_nat (length keys) < 2 ^ 63 ->
  qs <> [] -> Forall (pack_ok A (Z.of_nat (length keys)) unique (bits d) param) qs ->
  exists rs, Pack32 A m qs (Z.of_nat (length keys)) p unique param = Done rs /\ Forall2 (pack_answers A m (Z.of_nat (length keys)) unique param keys) qs rs.
Proof.
  intros OO MO (I1 & I2 & I3 & D & LAY) HU LK NE FA. unfold Pack32, PyGroupByAllPack32.
  pose proof (index_read _ _ I1) as K1. pose proof (index_read _ _ I2) as K2. pose proof (index_read _ _ I3) as K3. destruct I1 as (-> & _), I2 as (-> & _), I3 as (-> & _).
  rewrite Z.eqb_refl. cbn [negb orb].
  assert (B : index_bits d = Some (bits d) /\ 0 < bits d) by (cbn [In] in D; destruct D as [<- | [<- | [<- | []]]]; cbn; split; reflexivity).
  destruct B as [-> W]. rewrite (proj2 (Z.ltb_lt unique _)) by lia. cbn [negb].
  assert (SH : Forall (fun q => shaped (Z.of_nat (length keys)) (q_col q)) qs) by (apply Forall_forall; intros q Hq; rewrite Forall_forall in FA; destruct (FA q Hq) as (H & _); exact H).
  rewrite (infos_right _ qs SH). cbn [obind]. rewrite !map_length, Nat.eqb_refl. cbn [negb].
  pose proof (all_right A OO m MO (bits d) unique param keys _ _ _ LAY HU W LK qs FA) as ALL.
  destruct (map xinf qs) as [|i0 rest] eqn:EI; [destruct qs; [contradiction|discriminate EI]|].
  destruct qs as [|q qs]; [contradiction|]. cbn [map] in EI. injection EI as <- <-.
  assert (SL : Z.of_nat (length (c_vals (q_col q))) = Z.of_nat (length keys)) by (pose proof (Forall_inv SH) as (_ & _ & S' & _); exact S').
  cbn [xinf xi_info i_vals]. rewrite SL, Z.eqb_refl. cbn [negb].
  rewrite K1, K2, K3. cbn [undef obind].
  assert (Q : pack_ok A (Z.of_nat (length keys)) unique (bits d) param q) by (now apply Forall_inv in FA).
  match goal with |- context [obind ?x _] => match x with context [multi_bands] => assert (B : x = Done None \/ exists r, x = Done (Some [r]) /\ qs = [] /\ pack_answers A m (Z.of_nat (length keys)) unique param keys q r) end end.
  { destruct qs as [|q2 qs]; [|now left]. cbn [map]. destruct (65536 <? Z.of_nat (length keys)); [|now left]. cbn [hd].
    pose proof Q as (_ & SU & _ & R1 & R2 & _). rewrite !as_int64_id by lia. destruct (func_small _ _ SU) as [-> _].
    destruct (((103 <=? q_func q) && (q_func q <=? 105)) || (q_func q =? 106)) eqn:E; [|now left].
    destruct (bands_right A OO m MO (bits d) unique param keys _ _ _ LAY HU LK q Q) as [-> | (r & -> & R)]; eauto.
    apply orb_true_iff in E as [E | E]; [apply andb_true_iff in E as [E1 E2]; apply Z.leb_le in E1, E2; cbn [In]; lia|apply Z.eqb_eq in E; cbn [In]; lia]. }
  destruct B as [-> | (r & -> & -> & R)]; cbn [obind].
  - cbn [length] in ALL |- *. rewrite map_length in ALL. exact ALL.
  - exists [r]. split; auto.
Qed.
