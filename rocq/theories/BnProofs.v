(** Proofs about BinsToCutsBSearch from its arguments to its results. *)
From Verif Require Import Base Mem MemLemmas Par Num AllModel AllSpec All5Proofs EaModel EaSpec Ea2Proofs BnModel BnSpec.
From Verif Require BinsModel BinsSpec BinsProofs Bins2Proofs.
Local Open Scope Z_scope.

Lemma dtype_cases d : 0 <= d <= 13 -> In d [0; 1; 2; 3; 4; 5; 6; 7; 8; 9; 10; 11; 12; 13].
Proof. cbn. lia. Qed.
Ltac each_dtype H := apply dtype_cases in H; cbn [In] in H; repeat (destruct H as [<- | H]); [..|contradiction].
Lemma value_types d : 0 <= d <= 13 -> exists T, value_type d = Some T /\ stored d = Some T.
Proof. intros H. each_dtype H; eexists; split; reflexivity. Qed.
Lemma edge_types d : In d edge_dtypes -> exists T, bin_type d = Some T /\ value_type d = Some T /\ 0 <= d <= 13.
Proof. unfold edge_dtypes. cbn [In]. intros H. repeat (destruct H as [<- | H]); [..|contradiction]; eexists; (split; [reflexivity|split; [reflexivity|lia]]). Qed.
Lemma value_none d : ~ 0 <= d <= 13 -> value_type d = None.
Proof. destruct d as [|p|p]; [lia| |reflexivity]. intros H. do 4 (try (destruct p as [p|p|]); try reflexivity; try (exfalso; lia)). Qed.
Lemma edge_none d : ~ In d edge_dtypes -> bin_type d = None.
Proof.
  intros H. destruct (bin_type d) eqn:E; [|reflexivity]. exfalso. apply H. unfold bin_type in E. destruct d as [|p|p]; try discriminate E.
  do 4 (destruct p as [p|p|]; try discriminate E; try (cbn; tauto)).
Qed.
Lemma search_none mode : ~ In mode [0; 1; 2] -> search_fun mode = None.
Proof. intros H. destruct mode as [|[p|[p|p|]|]|p]; try reflexivity; exfalso; apply H; cbn; auto. Qed.
Lemma out_dtype_right n : out_dtype n = small_dtype n.
Proof.
  unfold out_dtype, small_dtype, BinsModel.out_bits. destruct (Z.ltb_spec 2000000000 n), (Z.ltb_spec 30000 n), (Z.ltb_spec 100 n), (Z.leb_spec n 100), (Z.leb_spec n 30000), (Z.leb_spec n 2000000000); try lia; reflexivity.
Qed.
Lemma int32_right z : - 2 ^ 31 <= z < 2 ^ 31 -> int32_ok z = true.
Proof. intros H. unfold int32_ok. rewrite (proj2 (Z.leb_le _ _)), (proj2 (Z.ltb_lt _ _)) by lia. reflexivity. Qed.

Section Cuts.
  Context (unit : Z) (round : Z -> Z -> Z) (HU : 0 < unit).
  Lemma to_type_exact d T z : value_type d = Some T -> of_dtype unit round d z -> to_type unit round T z = z.
  Proof.
    intros HT H. unfold of_dtype in H. assert (HD : 0 <= d <= 13). { destruct (Z.le_gt_cases 0 d), (Z.le_gt_cases d 13); try lia; rewrite value_none in HT by lia; discriminate. }
    destruct (value_types d HD) as (T1 & E1 & E2). rewrite HT in E1. injection E1 as <-. destruct (int_type d) as [((lo, hi), mis)|] eqn:E.
    - destruct H as (k & -> & Hk). destruct (int_facts d lo hi mis T E E2) as (N & HW & _). unfold to_type. rewrite Z.quot_mul by lia. rewrite HW by lia. destruct T as [b|b|b]; try reflexivity. exfalso. now apply (N b).
    - revert H. clear HU HT. each_dtype HD; try discriminate E; injection E2 as <-; intros H; exact H.
  Qed.

  Section One.
    Context (T B : ctype) (vals : list fl) (edges : list Z).
    Context (HE : forall e, In e edges -> to_type unit round T e = e) (HV : forall z, In (Fin z) vals -> to_type unit round B z = z).
    Lemma conv_same v : In v vals -> BinsModel.conv (to_type unit round B) v = v.
    Proof using HV. intros H. destruct v; try reflexivity. cbn. now rewrite HV. Qed.
    Let id := fun z : Z => z.
    Lemma conv_id v : BinsModel.conv id v = v.
    Proof. now destruct v. Qed.
    Lemma id_agree : BinsSpec.casts_agree id id edges.
    Proof. intros e z _. split; reflexivity. Qed.
    Lemma right_same v : In v vals -> BinsModel.search_right (to_type unit round T) (to_type unit round B) edges v = BinsModel.search_right id id edges v.
    Proof using HE HV.
      intros H. unfold BinsModel.search_right. rewrite conv_same, conv_id by exact H. cbv zeta. destruct (zrd edges _) as [el|] eqn:E1; [|reflexivity]. destruct (zrd edges 0) as [ef|] eqn:E2; [|reflexivity].
      rewrite !HE by (eapply BinsProofs.zrd_In; eauto). reflexivity.
    Qed.
    Lemma left_same v : In v vals -> BinsModel.search_left (to_type unit round T) (to_type unit round B) edges v = BinsModel.search_left id id edges v.
    Proof using HE HV.
      intros H. unfold BinsModel.search_left. rewrite conv_same, conv_id by exact H. cbv zeta. destruct (zrd edges _) as [el|] eqn:E1; [|reflexivity]. destruct (zrd edges 0) as [ef|] eqn:E2; [|reflexivity].
      rewrite !HE by (eapply BinsProofs.zrd_In; eauto). reflexivity.
    Qed.
    Lemma cut_same ok v : In v vals -> BinsModel.cut_one (to_type unit round T) (to_type unit round B) ok edges v = BinsModel.cut_one id id ok edges v.
    Proof using HE HV.
      intros H. unfold BinsModel.cut_one. rewrite conv_same, conv_id by exact H. cbv zeta. destruct (zrd edges _) as [el|] eqn:E1; [|reflexivity]. destruct (zrd edges 0) as [ef|] eqn:E2; [|reflexivity].
      rewrite !HE by (eapply BinsProofs.zrd_In; eauto). reflexivity.
    Qed.
    Context (ord : sched) (thr : bool) (c : nat) (d : Z) (Ho : fair ord) (Hc : (0 < c)%nat) (OK : BinsSpec.edges_ok (Z.of_nat (length edges))).
    Lemma search_exact right : BinsSpec.ascending edges ->
      BinsModel.SearchSorted (to_type unit round T) (to_type unit round B) right ord thr c vals edges d = Some (map (if right then BinsSpec.count_le edges else BinsSpec.count_lt edges) vals).
    Proof using HE HV Ho Hc OK.
      intros Ha. unfold BinsModel.SearchSorted. destruct right; apply par_map_list; auto; try exact NaN; intros v Hv.
      - rewrite right_same by exact Hv. rewrite (BinsProofs.search_right_spec id id edges id_agree OK v Ha). now rewrite conv_id.
      - rewrite left_same by exact Hv. rewrite (BinsProofs.search_left_spec id id edges id_agree OK v Ha). now rewrite conv_id.
    Qed.
    Lemma cut_exact ok : BinsSpec.strictly_ascending edges -> (In NaN vals -> ok NaN = false) ->
      exists r, BinsModel.CutBSearch (to_type unit round T) (to_type unit round B) ok ord thr c vals edges d = Some r /\ length r = length vals /\
        forall i v, nth_error vals i = Some v -> exists x, nth_error r i = Some x /\ 0 <= x /\ forall b, 1 <= b -> (x = b <-> ok v = true /\ BinsSpec.in_bin edges v b).
    Proof using HE HV Ho Hc OK.
      intros Ha Hn. unfold BinsModel.CutBSearch.
      assert (S1 : forall v, In v vals -> exists r, BinsModel.cut_one (to_type unit round T) (to_type unit round B) ok edges v = Some r /\ 0 <= r /\ forall b, 1 <= b -> (r = b <-> ok v = true /\ BinsSpec.in_bin edges v b)).
      { intros v Hv. rewrite cut_same by exact Hv. destruct (BinsProofs.cut_one_spec id id edges id_agree OK ok v Ha) as (r & H). { intros H. destruct v; try reflexivity. rewrite (Hn Hv) in H. discriminate H. } exists r. rewrite conv_id in H. exact H. }
      destruct (Bins2Proofs.par_map_exists ord thr c vals (BinsModel.cut_one (to_type unit round T) (to_type unit round B) ok edges) d Ho Hc) as (r & E & L & H).
      { intros v Hv. destruct (S1 v Hv) as (x & Ex & _). eauto. }
      exists r. split; [exact E|]. split; [exact L|]. intros i v Hv. rewrite (H i v Hv). destruct (S1 v (nth_error_In _ _ Hv)) as (x & Ex & H1 & H2). exists x. auto.
    Qed.
  End One.

  Lemma given a bins T B : numeric unit round a -> edges_given unit round a bins -> value_type (a_dtype a) = Some T -> bin_type (a_dtype bins) = Some B ->
    read_arg a = Some (arg_vals NaN a) /\ read_arg bins = Some (arg_vals 0 bins) /\ (a_len bins <=? 0) = false /\ BinsSpec.edges_ok (Z.of_nat (length (arg_vals 0 bins))) /\
    (forall e, In e (arg_vals 0 bins) -> to_type unit round T e = e) /\ (forall z, In (Fin z) (arg_vals NaN a) -> to_type unit round B z = z) /\ Z.of_nat (length (arg_vals NaN a)) = a_len a.
  Proof using HU.
    intros (HD & HL & OK & G & HH) (ED & EOK & EG & EE & F1 & F2) HT HB. assert (0 < a_len bins) by (destruct EE; lia).
    split; [apply (read_arg_right NaN (a_len a)); auto|]. split; [apply (read_arg_right 0 (a_len bins)); auto; lia|]. split; [lia|]. split; [rewrite (arg_vals_length 0 _ bins EOK), Z2Nat.id by lia; exact EE|].
    rewrite Forall_forall in F1, F2. split; [intros e He; apply (to_type_exact (a_dtype a)); auto|]. split; [|rewrite (arg_vals_length NaN _ a OK); lia].
    intros z Hz. destruct (edge_types _ ED) as (T1 & E1 & E2 & _). rewrite HB in E1. injection E1 as <-. apply (to_type_exact (a_dtype bins)); auto. exact (F2 _ Hz).
  Qed.
  Theorem search_right_call ord thr c junk a bins mode : fair ord -> (0 < c)%nat -> numeric unit round a -> edges_given unit round a bins -> In mode [1; 2] -> BinsSpec.ascending (arg_vals 0 bins) ->
    BinsToCutsBSearch unit round ord thr c junk (Nums a bins) mode =
      Done (small_dtype (a_len bins), map (if mode =? 1 then BinsSpec.count_lt (arg_vals 0 bins) else BinsSpec.count_le (arg_vals 0 bins)) (arg_vals NaN a)).
  Proof using HU.
    intros Ho Hc HN HE HM Ha. destruct (value_types (a_dtype a)) as (T & HT & _); [apply HN|]. destruct (edge_types (a_dtype bins)) as (B & HB & _); [apply HE|].
    destruct (given a bins T B HN HE HT HB) as (R1 & R2 & L & OK & G1 & G2 & _). unfold BinsToCutsBSearch. rewrite int32_right by (cbn in HM; lia). cbn [negb]. rewrite HT, HB, R1, R2.
    cbn [In] in HM. destruct HM as [<- | [<- | []]]; cbn [search_fun undef obind]; rewrite L.
    - rewrite (search_exact T B _ _ G1 G2 ord thr c junk Ho Hc OK false Ha). cbn [undef obind]. now rewrite out_dtype_right.
    - rewrite (search_exact T B _ _ G1 G2 ord thr c junk Ho Hc OK true Ha). cbn [undef obind]. now rewrite out_dtype_right.
  Qed.
  Lemma worth_right d v : 1 <= d <= 13 -> match v with Fin z => of_dtype unit round d z | _ => floating d = true end -> worth unit d v = proper unit d v.
  Proof.
    intros HD. assert (HD' : 0 <= d <= 13) by lia. revert HD. each_dtype HD'; intros HD; try lia; destruct v; intros H; try discriminate H; reflexivity.
  Qed.
  Theorem cut_call ord thr c junk a bins : fair ord -> (0 < c)%nat -> numeric unit round a -> a_dtype a <> 0 -> edges_given unit round a bins -> BinsSpec.strictly_ascending (arg_vals 0 bins) ->
    exists r, BinsToCutsBSearch unit round ord thr c junk (Nums a bins) 0 = Done (small_dtype (a_len bins), r) /\ Z.of_nat (length r) = a_len a /\
      forall i v, nth_error (arg_vals NaN a) i = Some v -> exists x, nth_error r i = Some x /\ 0 <= x /\
        forall b, 1 <= b -> (x = b <-> proper unit (a_dtype a) v = true /\ BinsSpec.in_bin (arg_vals 0 bins) v b).
  Proof using HU.
    intros Ho Hc HN H0 HE Ha. destruct (value_types (a_dtype a)) as (T & HT & _); [apply HN|]. destruct (edge_types (a_dtype bins)) as (B & HB & _); [apply HE|].
    destruct (given a bins T B HN HE HT HB) as (R1 & R2 & L & OK & G1 & G2 & LV).
    assert (W : forall v, In v (arg_vals NaN a) -> worth unit (a_dtype a) v = proper unit (a_dtype a) v).
    { intros v Hv. destruct HN as (HD & _ & _ & _ & HH). unfold holds in HH. rewrite Forall_forall in HH. specialize (HH v Hv). apply worth_right; auto; lia. }
    destruct (cut_exact T B _ _ G1 G2 ord thr c junk Ho Hc OK (worth unit (a_dtype a)) Ha) as (r & E & Lr & H).
    { intros Hv. rewrite (W NaN Hv). reflexivity. }
    exists r. unfold BinsToCutsBSearch. rewrite int32_right by lia. cbn [negb]. rewrite HT, HB, R1, R2. cbn [search_fun undef obind]. rewrite L, E. cbn [undef obind]. rewrite out_dtype_right. split; [reflexivity|].
    split; [lia|]. intros i v Hv. rewrite <- (W v (nth_error_In _ _ Hv)). exact (H i v Hv).
  Qed.
End Cuts.
