(** What GroupByAllPack32 refuses, and examples. *)
From Verif Require Import Base Mem MemLemmas GroupModel GroupSpec GroupProofs AccumSpec GrpxModel GrpxSpec Grpx4Proofs AllModel AllSpec All3Proofs All4Proofs HeapModel HeapSpec PxModel PxSpec PxProofs Px2Proofs Px3Proofs Px4Proofs.
Local Open Scope Z_scope.

Section Errors.
  Context {F : Type} (A : arith F) (m : xmachine F).
  Notation call := (PyGroupByAllPack32 A m).
  Notation query := (query (F := F)).

  Lemma bits_none d : ~ In d [5; 7; 9] -> index_bits d = None.
  Proof. intros H. destruct (index_bits d) eqn:E; auto. unfold index_bits in E. cbn [In] in H. each_dtype d; lia. Qed.
  Lemma bad_index cols rows g f c unique funcs lows highs param : k_dtype f <> k_dtype g \/ k_dtype c <> k_dtype g \/ ~ In (k_dtype g) [5; 7; 9] ->
    call cols rows g f c unique funcs lows highs param = Error.
  Proof.
    intros H. unfold PyGroupByAllPack32. destruct (Z.eqb_spec (k_dtype g) (k_dtype f)); [|reflexivity]. destruct (Z.eqb_spec (k_dtype g) (k_dtype c)); [|reflexivity].
    cbn [negb orb]. rewrite bits_none; [reflexivity|]. destruct H as [H | [H | H]]; congruence.
  Qed.
  Lemma past_index cols rows g f c unique funcs lows highs param : unique < 2 ^ 63 - 1 -> build_infos cols = Error -> call cols rows g f c unique funcs lows highs param = Error.
  Proof. intros U E. unfold PyGroupByAllPack32. destruct (negb _ || negb _); [reflexivity|]. destruct (index_bits _); [|reflexivity]. rewrite (proj2 (Z.ltb_lt _ _) U), E. reflexivity. Qed.
  Lemma no_array n cs rest rows g f c unique funcs lows highs param : unique < 2 ^ 63 - 1 -> Forall (shaped n) cs -> call (map OArray cs ++ OOther :: rest) rows g f c unique funcs lows highs param = Error.
  Proof.
    intros U H. apply past_index; auto. unfold build_infos, BuildArrayInfo. rewrite each_error; [reflexivity| |reflexivity].
    intros o Ho. apply in_map_iff in Ho as (x & <- & Hx). rewrite Forall_forall in H. eexists. apply (build_shaped n); auto.
  Qed.
  Lemma wrong_column n cs x rest rows g f c unique funcs lows highs param : unique < 2 ^ 63 - 1 -> Forall (shaped n) cs -> c_dtype x = -1 \/ c_ndim x <> 0 /\ c_ndim x <> 1 ->
    call (map OArray cs ++ OArray x :: rest) rows g f c unique funcs lows highs param = Error.
  Proof.
    intros U H B. apply past_index; auto. unfold build_infos, BuildArrayInfo. rewrite each_error; [reflexivity| |].
    - intros o Ho. apply in_map_iff in Ho as (y & <- & Hy). rewrite Forall_forall in H. eexists. apply (build_shaped n); auto.
    - cbn [build_one]. destruct (Z.eqb_spec (c_dtype x) (-1)) as [|N]; [reflexivity|]. destruct B as [B | [B1 B2]]; [contradiction|].
      rewrite (proj2 (Z.eqb_neq _ 0) B1), (proj2 (Z.eqb_neq _ 1) B2). reflexivity.
  Qed.
  Lemma wrong_lengths (n n' : Z) c1 c2 rest rows g f c unique funcs lows highs param : unique < 2 ^ 63 - 1 -> shaped n c1 -> shaped n' c2 -> n <> n' -> Forall (fun c => exists k, shaped k c) rest ->
    call (map OArray (c1 :: c2 :: rest)) rows g f c unique funcs lows highs param = Error.
  Proof.
    intros U H H' N HR. apply past_index; auto. unfold build_infos, BuildArrayInfo.
    assert (E : each build_one (map OArray (c1 :: c2 :: rest)) = Done (map (fun c => mkInfo (c_dtype c) (c_vals c)) (c1 :: c2 :: rest))).
    { rewrite each_map with (g := fun o => match o with OArray c => mkInfo (c_dtype c) (c_vals c) | _ => mkInfo 0 [] end); [now rewrite map_map|].
      intros o Ho. apply in_map_iff in Ho as (y & <- & Hy). destruct Hy as [<- | [<- | Hy]]; [now apply (build_shaped n)|now apply (build_shaped n')|].
      rewrite Forall_forall in HR. destruct (HR y Hy) as (k & Hk). now apply (build_shaped k). }
    rewrite E. cbn [obind map forallb hd i_vals]. rewrite Nat.eqb_refl. cbn [andb].
    destruct H as (_ & _ & L & _), H' as (_ & _ & L' & _). destruct (Nat.eqb_spec (length (c_vals c2)) (length (c_vals c1))); [lia|reflexivity].
  Qed.
  Lemma wrong_lists n cs rows g f c unique funcs lows highs param : unique < 2 ^ 63 - 1 -> Forall (shaped n) cs -> length funcs <> length cs \/ length lows <> length cs ->
    call (map OArray cs) rows g f c unique funcs lows highs param = Error.
  Proof.
    intros U H N. unfold PyGroupByAllPack32. destruct (negb _ || negb _); [reflexivity|]. destruct (index_bits _); [|reflexivity]. rewrite (proj2 (Z.ltb_lt _ _) U). cbn [negb].
    unfold build_infos. rewrite (build_all n cs H). cbn [obind]. rewrite !map_length, combine_length, !map_length, Nat.min_id.
    destruct (Nat.eqb_spec (length cs) (length funcs)); [|reflexivity]. destruct (Nat.eqb_spec (length cs) (length lows)); [|reflexivity]. destruct N; congruence.
  Qed.
  Lemma wrong_rows n cs rows g f c unique funcs lows highs param : unique < 2 ^ 63 - 1 -> Forall (shaped n) cs -> cs <> [] -> rows <> n ->
    call (map OArray cs) rows g f c unique funcs lows highs param = Error.
  Proof.
    intros U H NE N. unfold PyGroupByAllPack32. destruct (negb _ || negb _); [reflexivity|]. destruct (index_bits _); [|reflexivity]. rewrite (proj2 (Z.ltb_lt _ _) U). cbn [negb].
    unfold build_infos. rewrite (build_all n cs H). cbn [obind]. destruct (_ =? _)%nat; [|reflexivity]. destruct (_ =? _)%nat; [|reflexivity]. cbn [negb].
    destruct cs as [|x cs]; [contradiction|]. cbn [map combine fst snd xi_info i_vals]. pose proof (Forall_inv H) as (_ & _ & L & _).
    rewrite (proj2 (Z.eqb_neq (Z.of_nat (length (i_vals (inf_of x)))) rows)) by (cbn [inf_of i_vals]; lia). reflexivity.
  Qed.
  Lemma wrong_function d rows p unique param qs q : PxSpec.index_ok d (p_group p) -> PxSpec.index_ok d (p_first p) -> PxSpec.index_ok d (p_count p) -> unique < 2 ^ 63 - 1 ->
    Forall (fun q => shaped rows (q_col q)) qs -> In q qs -> - 2 ^ 31 <= q_func q < 2 ^ 31 -> supported (q_func q) (c_dtype (q_col q)) = false -> ~ (q_func q = 103 /\ is_text (c_dtype (q_col q)) = true) ->
    Pack32 A m qs rows p unique param = Error.
  Proof.
    intros I1 I2 I3 U SH Hq HF SU NT.
    assert (TN : GetGroupByXFunction (c_dtype (q_col q)) (q_func q) = None).
    { apply table_none; auto. destruct (stored (c_dtype (q_col q))) eqn:E; [left|now right]. clear - E. unfold stored in E. cbn [dtypes In].
      destruct (c_dtype (q_col q)) as [|x|x]; try discriminate; [tauto|]. repeat match goal with x : positive |- _ => destruct x as [x|x|]; try discriminate E end; tauto. }
    unfold Pack32, PyGroupByAllPack32. rewrite (index_read _ _ I1), (index_read _ _ I2), (index_read _ _ I3). destruct (negb _ || negb _); [reflexivity|]. destruct (index_bits _) as [w|]; [|reflexivity].
    rewrite (proj2 (Z.ltb_lt _ _) U). cbn [negb]. rewrite (infos_right rows qs SH). cbn [obind]. rewrite !map_length, Nat.eqb_refl. cbn [negb undef obind].
    assert (PR : each (x_prepare rows (unique + 1) (map q_func qs) (map q_low qs) (map q_high qs)) (combine (seq 0 (length qs)) (map xinf qs)) = Error).
    { assert (L0 : forall i y, In (i, y) (combine (seq 0 (length qs)) (map xinf qs)) -> exists q, nth_error qs i = Some q /\ y = xinf q).
      { intros i y Hy. rewrite combine_map_r in Hy. apply in_map_iff in Hy as ([j q'] & E & Hy). injection E as <- <-. destruct (in_combine_seq qs 0 j q' Hy) as (j' & -> & N). eauto. }
      apply In_nth_error in Hq as [i Ni].
      apply each_no_undef with (x := (i, xinf q)).
      - intros [j y] Hy. destruct (L0 j y Hy) as (q' & Nj & ->). unfold x_prepare. cbn [fst snd]. rewrite !nth_error_map, Nj. cbn [option_map xinf xi_info i_dtype xi_item].
        destruct (GetGroupByXFunction (c_dtype (q_col q')) (as_func (q_func q'))) as [[k0 o0]|]; [|congruence]. destruct (_ || _); [destruct (_ <? 0); congruence|]. destruct (200 <=? _); [destruct (negb _); congruence|destruct (_ <? 0); congruence].
      - rewrite combine_map_r. apply in_map_iff. exists (i, q). split; [reflexivity|]. clear - Ni. change i with (0 + i)%nat at 1. generalize 0%nat. revert i Ni.
        induction qs as [|y l IH]; intros i Ni s; [destruct i; discriminate|]. destruct i as [|i]; cbn [nth_error] in Ni; cbn [length seq combine].
        + injection Ni as <-. left. f_equal. lia.
        + right. replace (s + S i)%nat with (S s + i)%nat by lia. now apply IH.
      - unfold x_prepare. cbn [fst snd]. rewrite !nth_error_map, Ni. cbn [option_map xinf xi_info i_dtype xi_item]. rewrite as_func_small by exact HF. rewrite TN. reflexivity. }
    destruct qs as [|q0 qs]; [destruct Hq|]. cbn [map]. cbn [map] in PR. cbn [xinf xi_info i_vals]. pose proof (Forall_inv SH) as (_ & _ & L & _). rewrite L, Z.eqb_refl. cbn [negb hd].
    match goal with |- obind ?x _ = Error => assert (B : x = Done None) end.
    { destruct qs as [|q2 qs]; [|reflexivity]. destruct Hq as [-> | []]. cbn [map]. destruct (65536 <? rows); [|reflexivity]. rewrite as_func_small by exact HF. destruct (_ || _); [|reflexivity].
      unfold multi_bands. cbn [xinf xi_info i_dtype]. now rewrite TN. }
    rewrite B. cbn [obind]. cbn [length] in *. rewrite ?map_length. rewrite PR. reflexivity.
  Qed.

  (** The median of text: one array of single bytes is allocated for many rows. *)
  Lemma text_median d rows p unique param q : PxSpec.index_ok d (p_group p) -> PxSpec.index_ok d (p_first p) -> PxSpec.index_ok d (p_count p) -> In d [5; 7; 9] -> 0 <= unique < 2 ^ 63 - 1 ->
    shaped rows (q_col q) -> 65536 < rows -> is_text (c_dtype (q_col q)) = true -> 1 < c_item (q_col q) -> q_func q = 103 -> 0 <= q_low q < q_high q -> q_high q <= unique + 1 ->
    x_threads m = true -> 0 < x_cores m -> Pack32 A m [q] rows p unique param = Undefined.
  Proof.
    intros I1 I2 I3 D U SH HR TX IT HF R1 R2 XT XC.
    pose proof (index_read _ _ I1) as K1. pose proof (index_read _ _ I2) as K2. pose proof (index_read _ _ I3) as K3. destruct I1 as (E1 & _), I2 as (E2 & _), I3 as (E3 & _).
    unfold Pack32, PyGroupByAllPack32. rewrite E1, E2, E3, Z.eqb_refl. cbn [negb orb].
    assert (B : exists w, index_bits d = Some w) by (cbn [In] in D; destruct D as [<- | [<- | [<- | []]]]; eexists; reflexivity). destruct B as [w ->].
    rewrite (proj2 (Z.ltb_lt unique _)) by lia. cbn [negb]. rewrite (infos_right rows [q]) by (constructor; [exact SH|constructor]). cbn [obind map length Nat.eqb negb].
    destruct SH as (_ & _ & L & _). cbn [xinf xi_info i_vals]. rewrite L, Z.eqb_refl, K1, K2, K3. cbn [negb undef obind hd]. rewrite (proj2 (Z.ltb_lt 65536 _) HR).
    rewrite HF. change (as_func 103) with 103. rewrite !as_int64_id by lia. change (((103 <=? 103) && (103 <=? 105)) || (103 =? 106)) with true. cbv iota.
    unfold multi_bands. cbn [xinf xi_info i_dtype i_vals].
    assert (T : exists k, GetGroupByXFunction (c_dtype (q_col q)) 103 = Some (k, c_dtype (q_col q)) /\ x_T k = XText).
    { apply text_cases in TX. cbn [In] in TX. destruct TX as [<- | [<- | [<- | []]]]; eexists; split; reflexivity. }
    destruct T as (k & -> & Tk). rewrite XT. cbn [andb].
    assert (C : 0 <? (if q_high q - q_low q <? x_cores m then q_high q - q_low q else x_cores m) = true) by (apply Z.ltb_lt; destruct (q_high q - q_low q <? x_cores m); lia). rewrite C.
    rewrite (proj2 (Z.ltb_ge (unique + 1) 0)) by lia. unfold x_fits, default_item. rewrite Tk, TX. cbn [xinf xi_item].
    rewrite (proj2 (Z.leb_gt (c_item (q_col q)) 1)) by lia. rewrite andb_false_r. reflexivity.
  Qed.
End Errors.

Lemma an_index_ok d l : PxSpec.index_ok d (an_index d l).
Proof. unfold PxSpec.index_ok, an_index. cbn [k_dtype k_len k_start k_mem k_step]. lia. Qed.
Lemma an_index_vals d l : key_vals (an_index d l) = l.
Proof.
  pose proof (index_read d _ (an_index_ok d l)) as E. unfold read_key in E. cbn [an_index k_start k_len k_mem] in E. change (0 <=? 0) with true in E. rewrite Z.add_0_l, Z.leb_refl in E. cbn [andb] in E.
  injection E as <-. rewrite Nat2Z.id. change (Z.to_nat 0) with 0%nat. cbn [skipn]. apply firstn_all.
Qed.
Lemma ex_packed : packed_ok 5 3 ex_keys ex_pack.
Proof.
  unfold packed_ok, ex_pack. cbn [p_group p_first p_count]. split; [apply an_index_ok|]. split; [apply an_index_ok|]. split; [apply an_index_ok|]. split; [now left|].
  rewrite !an_index_vals. apply (ex_layout ex_keys). reflexivity.
Qed.
Lemma whole_order : order_is_ok whole.
Proof. split; [exact (proj1 whole_ok)|]. intros [a|] [b|]; try discriminate. auto. Qed.
Lemma ex_machine_ok thr : xmachine_ok whole (x_machine thr).
Proof.
  split; [intros n; apply Permutation_refl || (intros; apply Permutation_refl)|]. split; [|split].
  - intros T. apply isort_nthel, order_valid, whole_order.
  - intros n _. cbn. lia.
  - intros w i. cbn [x_machine x_left]. apply repeat_length.
Qed.
