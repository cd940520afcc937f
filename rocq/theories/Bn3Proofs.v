(** Proofs about text in BinsToCutsBSearch, and about ReIndex and ReMapIndex, from their arguments to their results. *)
From Verif Require Import Base Mem MemLemmas Par Num AllModel AllSpec EaModel EaSpec Ea2Proofs BnModel BnSpec BnProofs Bn2Proofs.
From Verif Require BinsModel BinsSpec BinsProofs Bins2Proofs WnModel.
Local Open Scope Z_scope.

(** ** Text *)
Lemma concat_item {X} (k : nat) (l : list (list X)) i x : Forall (fun s => length s = k) l -> nth_error l i = Some x -> firstn k (skipn (i * k) (concat l)) = x.
Proof.
  revert i. induction l as [|s l IH]; intros i F E; [destruct i; discriminate|]. inversion F as [|? ? H1 H2]; subst. destruct i as [|i].
  - injection E as ->. cbn. now rewrite firstn_app, firstn_all, Nat.sub_diag, app_nil_r.
  - cbn [concat Nat.mul]. rewrite skipn_app, (skipn_all2 (n := length s + i * length s)) by lia. replace (length s + i * length s - length s)%nat with (i * length s)%nat by lia. cbn [app]. now apply IH.
Qed.
Lemma concat_size {X} (k : nat) (l : list (list X)) : Forall (fun s => length s = k) l -> length (concat l) = (length l * k)%nat.
Proof. induction 1 as [|s l H _ IH]; [reflexivity|]. cbn. rewrite app_length, IH. lia. Qed.
Theorem text_call unit round ord thr c junk size a bins mode : fair ord -> (0 < c)%nat -> thr = false \/ size = 1 -> a_dtype a = 18 -> a_dtype bins = 18 -> - 2 ^ 31 <= mode < 2 ^ 31 ->
  0 <= a_len a -> arg_ok (a_len a) a -> gapless a -> arg_ok (a_len bins) bins -> gapless bins -> BinsSpec.edges_ok (a_len bins) ->
  0 <= size -> Forall (fun s => Z.of_nat (length s) = size /\ BinsSpec.good_string s) (arg_vals [] a) -> Forall BinsSpec.good_string (arg_vals [] bins) -> BinsSpec.texts_ascending (arg_vals [] bins) ->
  exists r, BinsToCutsBSearch unit round ord thr c junk (Texts size a bins) mode = Done (small_dtype (a_len bins), r) /\ Z.of_nat (length r) = a_len a /\
    forall i s, nth_error (arg_vals [] a) i = Some s -> exists x, nth_error r i = Some x /\ 0 <= x /\
      forall b, 1 <= b -> (x = b <-> BinsSpec.text s <> [] /\ BinsSpec.text_in_bin (map BinsSpec.text (arg_vals [] bins)) (BinsSpec.text s) b).
Proof.
  intros Ho Hc HT D1 D2 HM HL OK G EOK EG EE HS HA HB Ha. unfold BinsToCutsBSearch. rewrite int32_right by exact HM. cbn [negb]. rewrite D1, D2. cbn [Z.eqb Pos.eqb andb orb].
  assert (0 < a_len bins) by (destruct EE; lia). rewrite (read_arg_right [] (a_len a) a), (read_arg_right [] (a_len bins) bins) by (auto; lia). cbn [undef obind].
  assert (LV : length (arg_vals [] a) = Z.to_nat (a_len a)) by apply (arg_vals_length [] _ a OK).
  assert (LB : length (arg_vals [] bins) = Z.to_nat (a_len bins)) by apply (arg_vals_length [] _ bins EOK).
  assert (FS : Forall (fun s => length s = Z.to_nat size) (arg_vals [] a)). { eapply Forall_impl; [|exact HA]. cbn. intros s (Q & _). lia. }
  rewrite Forall_forall in HA, HB.
  assert (IT : forall i, (i < length (arg_vals [] a))%nat -> exists s, nth_error (arg_vals [] a) i = Some s /\ firstn (Z.to_nat size) (skipn (i * Z.to_nat size) (concat (arg_vals [] a))) = s).
  { intros i Hi. destruct (nth_error_lt (arg_vals [] a) i Hi) as (s & Es). exists s. split; [exact Es|]. now apply concat_item. }
  destruct (Bins2Proofs.cut_string_array ord thr c (concat (arg_vals [] a)) size (length (arg_vals [] a)) (arg_vals [] bins) junk) as (r & E & L & H'); auto.
  - rewrite (concat_size (Z.to_nat size)) by exact FS. nia.
  - rewrite LB, Z2Nat.id by lia. exact EE.
  - intros i Hi. destruct (IT i Hi) as (s & Es & ->). apply HA. now apply nth_error_In in Es.
  - rewrite E. cbn [undef obind]. exists r. rewrite out_dtype_right. split; [reflexivity|]. split; [lia|]. intros i s Es. assert (Hi : (i < length (arg_vals [] a))%nat) by (apply nth_error_Some; congruence).
    destruct (IT i Hi) as (s' & Es' & Q). destruct (H' i Hi) as (x & Ex & Hx & Hb). rewrite Q in Hb. cbv zeta in Hb. rewrite Es in Es'. injection Es' as <-. eauto.
Qed.

(** ** What is refused *)
Lemma mode_refused unit round ord thr c junk x mode : ~ (- 2 ^ 31 <= mode < 2 ^ 31) -> BinsToCutsBSearch unit round ord thr c junk x mode = Error.
Proof. intros H. unfold BinsToCutsBSearch. assert (int32_ok mode = false) as -> by (unfold int32_ok; lia). reflexivity. Qed.
Lemma numbers_refused unit round ord thr c junk a bins mode : ~ In mode [0; 1; 2] \/ ~ 0 <= a_dtype a <= 13 \/ ~ In (a_dtype bins) edge_dtypes -> BinsToCutsBSearch unit round ord thr c junk (Nums a bins) mode = Error.
Proof.
  intros H. unfold BinsToCutsBSearch. destruct (negb (int32_ok mode)); [reflexivity|]. destruct H as [H | [H | H]].
  - now rewrite (search_none _ H).
  - rewrite (value_none _ H). now destruct (search_fun mode).
  - rewrite (edge_none _ H). now destruct (search_fun mode), (value_type (a_dtype a)).
Qed.
Lemma texts_refused unit round ord thr c junk size a bins mode : a_dtype a <> a_dtype bins \/ ~ In (a_dtype a) [18; 19] -> BinsToCutsBSearch unit round ord thr c junk (Texts size a bins) mode = Error.
Proof.
  intros H. unfold BinsToCutsBSearch. destruct (negb (int32_ok mode)); [reflexivity|]. assert ((a_dtype a =? a_dtype bins) && ((a_dtype a =? 18) || (a_dtype a =? 19)) = false) as ->; [|reflexivity].
  cbn [In] in H. lia.
Qed.
Lemma index_none d : ~ In d [5; 7; 9] -> index_type d = false.
Proof. cbn. intros H. unfold index_type. lia. Qed.
Lemma counts_refused unit a idx : 0 <= a_len a -> 0 <= a_len idx -> arg_ok (a_len a) a -> arg_ok (a_len idx) idx ->
  (a_len a = 1 /\ a_step a <> 1) \/ (a_len idx = 1 /\ a_step idx <> 1) \/ a_len a <> a_len idx -> NanInfCountFromSort unit a idx = Error.
Proof.
  intros L1 L2 O1 O2 H. assert (ONE : forall X (x : X) (b : arg X), 0 <= a_len b -> arg_ok (a_len b) b -> (a_len b = 1 /\ a_step b <> 1 /\ mlp_read b = Error) \/ mlp_read b = Done (arg_vals x b)).
  { intros X x b Hl Ho. destruct (Z.eq_dec (a_len b) 1), (Z.eq_dec (a_step b) 1); try (right; apply (mlp_right x (a_len b)); auto; unfold one_by_one; lia). left. split; [auto|]. split; [auto|]. unfold mlp_read, WnModel.contiguous. replace ((a_step b =? 1) || (a_len b <=? 1)) with true by lia. replace ((a_step b =? 1) || (a_len b <=? 0)) with false by lia. reflexivity. }
  assert (Q : forall X (x : X) (b : arg X), 0 <= a_len b -> arg_ok (a_len b) b -> a_len b = 1 -> a_step b <> 1 -> mlp_read b = Error).
  { intros X x b Hl Ho Hl1 Hs. unfold mlp_read, WnModel.contiguous. replace ((a_step b =? 1) || (a_len b <=? 1)) with true by lia. replace ((a_step b =? 1) || (a_len b <=? 0)) with false by lia. reflexivity. }
  unfold NanInfCountFromSort. destruct H as [(H1 & H2) | [(H1 & H2) | H]].
  - rewrite (Q _ NaN a) by auto. reflexivity.
  - rewrite (Q _ 0 idx) by auto. destruct (ONE _ NaN a L1 O1) as [(_ & _ & ->) | ->]; reflexivity.
  - destruct (ONE _ NaN a L1 O1) as [(_ & _ & ->) | ->]; [reflexivity|]. destruct (ONE _ 0 idx L2 O2) as [(_ & _ & ->) | ->]; [reflexivity|]. cbn [obind]. replace (a_len a =? a_len idx) with false by lia. reflexivity.
Qed.
Lemma counts_none unit a idx : 0 <= a_len a -> arg_ok (a_len a) a -> arg_ok (a_len a) idx -> one_by_one a -> one_by_one idx ->
  ~ 0 <= a_dtype a <= 13 \/ ~ In (a_dtype idx) [5; 7; 9] -> NanInfCountFromSort unit a idx = Done None.
Proof.
  intros L O1 O2 B1 B2 H. unfold NanInfCountFromSort. rewrite (mlp_right NaN (a_len a) a L O1 B1), (mlp_right 0 (a_len a) idx L O2 B2). cbn [obind]. destruct O2 as (LI & _). rewrite LI, Z.eqb_refl. cbn [negb]. destruct H as [H | H].
  - rewrite (value_none _ H). now destruct (index_type (a_dtype idx)).
  - now rewrite (index_none _ H).
Qed.
Lemma sorted_refused unit round junk a bins idx n p m mode : ~ (- 2 ^ 31 <= mode < 2 ^ 31) \/ ~ (- 2 ^ 63 <= n < 2 ^ 63) \/ ~ (- 2 ^ 63 <= p < 2 ^ 63) \/ ~ (- 2 ^ 63 <= m < 2 ^ 63) \/ a_dtype bins <> 12 ->
  BinsToCutsSorted unit round junk a bins idx (n, p, m) mode = Error.
Proof.
  intros H. unfold BinsToCutsSorted. destruct (int32_ok mode) eqn:E1; [|reflexivity]. destruct (int64_ok n && int64_ok p && int64_ok m) eqn:E2; [|reflexivity]. cbn [negb].
  replace (a_dtype bins =? 12) with false; [reflexivity|]. unfold int32_ok, int64_ok in E1, E2. lia.
Qed.
Lemma sorted_none unit round junk a bins idx n p m mode : - 2 ^ 31 <= mode < 2 ^ 31 -> - 2 ^ 63 <= n < 2 ^ 63 -> - 2 ^ 63 <= p < 2 ^ 63 -> - 2 ^ 63 <= m < 2 ^ 63 -> a_dtype bins = 12 ->
  ~ 0 <= a_dtype a <= 13 \/ ~ In (a_dtype idx) [5; 7; 9] -> BinsToCutsSorted unit round junk a bins idx (n, p, m) mode = Done None.
Proof.
  intros H1 H2 H3 H4 D H. unfold BinsToCutsSorted. rewrite int32_right by exact H1. assert (int64_ok n && int64_ok p && int64_ok m = true) as -> by (unfold int64_ok; lia). rewrite D. cbn [negb Z.eqb Pos.eqb].
  destruct H as [H | H]; [rewrite (value_none _ H); now destruct (index_type (a_dtype idx))|now rewrite (index_none _ H)].
Qed.

(** ** ReIndex *)
Theorem reindex_call {X} ord thr c (junk zero : X) idx a : fair ord -> (0 < c)%nat -> 0 <= a_len a < 2 ^ 63 -> arg_ok (a_len a) a -> one_by_one a -> arg_ok (a_len a) idx -> one_by_one idx ->
  In (a_dtype idx) [5; 6; 7; 8; 9; 10] -> (In (a_dtype idx) [5; 6] -> a_len a <= 2 ^ 31) -> a_dtype a <> 17 -> Forall (fun k => 0 <= k < a_len a) (arg_vals 0 idx) ->
  ReIndexCall ord thr c junk idx a = Done (Some (a_dtype a, map (fun k => nth (Z.to_nat k) (arg_vals zero a) zero) (arg_vals 0 idx))).
Proof.
  intros Ho Hc HL OK O1 OKI O2 HT HW HD HF. unfold ReIndexCall. rewrite (mlp_right 0 (a_len a) idx ltac:(lia) OKI O2), (mlp_right zero (a_len a) a ltac:(lia) OK O1). cbn [obind]. destruct OKI as (LI & _). rewrite LI, Z.eqb_refl. cbn [negb].
  replace (a_dtype a =? 17) with false by lia. rewrite Forall_forall in HF. assert (LV : Z.of_nat (length (arg_vals zero a)) = a_len a) by (rewrite (arg_vals_length zero _ a OK); lia).
  assert (E : exists w, index_bits (a_dtype idx) = Some w /\ 0 < w /\ a_len a <= 2 ^ (w - 1)).
  { cbn [In] in HT, HW. repeat (destruct HT as [HT | HT]); try contradiction; rewrite <- HT in *; eexists; (split; [reflexivity|split; [reflexivity|]]); change (2 ^ (32 - 1)) with (2 ^ 31); change (2 ^ (64 - 1)) with (2 ^ 63); try lia; apply HW; auto. }
  destruct E as (w & -> & W0 & W1). rewrite (Bins2Proofs.reindex ord thr c w _ _ junk zero Ho Hc W0); [reflexivity|]. intros k Hk. apply HF in Hk. lia.
Qed.
Lemma reindex_wide {X} ord thr c (junk zero : X) idx a k : (0 < c)%nat -> 0 <= a_len a -> arg_ok (a_len a) a -> one_by_one a -> arg_ok (a_len a) idx -> one_by_one idx ->
  a_dtype idx = 6 -> a_dtype a <> 17 -> In k (arg_vals 0 idx) -> 2 ^ 31 <= k < 2 ^ 32 -> ReIndexCall ord thr c junk idx a = Undefined.
Proof.
  intros Hc HL OK O1 OKI O2 HT HD HI HK. unfold ReIndexCall. rewrite (mlp_right 0 (a_len a) idx HL OKI O2), (mlp_right zero (a_len a) a HL OK O1). cbn [obind]. destruct OKI as (LI & _). rewrite LI, Z.eqb_refl. cbn [negb].
  rewrite (proj2 (Z.eqb_neq _ _) HD), HT. cbn [index_bits]. apply In_nth_error in HI as (i & Hi). unfold BinsModel.ReIndex. rewrite (Par.par_map_none ord thr c _ _ junk i Hc (nth_error_Some_lt _ _ _ Hi)); [reflexivity|].
  rewrite Hi. assert (E : wrap 32 k < 0).
  { unfold wrap. change (2 ^ (32 - 1)) with (2 ^ 31) in *. rewrite Z.mod_small by lia. rewrite (proj2 (Z.ltb_ge k (2 ^ 31))) by lia. lia. }
  unfold zrd. now rewrite (proj2 (Z.leb_gt _ _) E).
Qed.
Lemma reindex_refused {X} ord thr c (junk zero : X) idx a : 0 <= a_len a -> 0 <= a_len idx -> arg_ok (a_len a) a -> arg_ok (a_len idx) idx ->
  (a_len a = 1 /\ a_step a <> 1) \/ (a_len idx = 1 /\ a_step idx <> 1) \/ a_len a <> a_len idx \/ (a_dtype a <> 17 /\ ~ In (a_dtype idx) [5; 6; 7; 8; 9; 10]) -> ReIndexCall ord thr c junk idx a = Error.
Proof.
  intros L1 L2 O1 O2 H. assert (ONE : forall X (x : X) (b : arg X), 0 <= a_len b -> arg_ok (a_len b) b -> mlp_read b = if (a_len b =? 1) && negb (a_step b =? 1) then Error else Done (arg_vals x b)).
  { intros Y x b Hl Ho. destruct (Z.eqb_spec (a_len b) 1), (Z.eqb_spec (a_step b) 1); cbn [andb negb]; try (apply (mlp_right x (a_len b)); auto; unfold one_by_one; lia). unfold mlp_read, WnModel.contiguous. replace ((a_step b =? 1) || (a_len b <=? 1)) with true by lia. replace ((a_step b =? 1) || (a_len b <=? 0)) with false by lia. reflexivity. }
  unfold ReIndexCall. rewrite (ONE _ 0 idx L2 O2), (ONE _ zero a L1 O1). destruct ((a_len idx =? 1) && negb (a_step idx =? 1)) eqn:E1; [reflexivity|]. destruct ((a_len a =? 1) && negb (a_step a =? 1)) eqn:E2; [reflexivity|]. cbn [obind].
  destruct (a_len idx =? a_len a) eqn:E3; [|reflexivity]. cbn [negb]. assert (H4 : a_dtype a <> 17 /\ ~ In (a_dtype idx) [5; 6; 7; 8; 9; 10]) by (destruct H as [H | [H | [H | H]]]; [exfalso; lia|exfalso; lia|exfalso; lia|exact H]). destruct H4 as (H4 & H5). replace (a_dtype a =? 17) with false by lia.
  assert (index_bits (a_dtype idx) = None) as ->; [|reflexivity]. destruct (index_bits (a_dtype idx)) eqn:E; [|reflexivity]. exfalso. apply H5. unfold index_bits in E. destruct (a_dtype idx) as [|q|q]; try discriminate E. do 4 (destruct q as [q|q|]; try discriminate E; try (cbn; tauto)).
Qed.
Lemma reindex_none {X} ord thr c (junk zero : X) idx a : 0 <= a_len a -> arg_ok (a_len a) a -> one_by_one a -> arg_ok (a_len a) idx -> one_by_one idx -> a_dtype a = 17 -> ReIndexCall ord thr c junk idx a = Done None.
Proof.
  intros HL OK O1 OKI O2 HD. unfold ReIndexCall. rewrite (mlp_right 0 (a_len a) idx HL OKI O2), (mlp_right zero (a_len a) a HL OK O1). cbn [obind]. destruct OKI as (LI & _). rewrite LI, Z.eqb_refl, HD. reflexivity.
Qed.

(** ** ReMapIndex *)
Lemma remap_none d : ~ In d [1; 3; 5; 7; 9] -> remap_bits d = None.
Proof. intros H. destruct (remap_bits d) eqn:E; [|reflexivity]. exfalso. apply H. unfold remap_bits in E. destruct d as [|q|q]; try discriminate E. do 4 (destruct q as [q|q|]; try discriminate E; try (cbn; tauto)). Qed.
Theorem remap_call a out mapper : 0 <= a_len a -> arg_ok (a_len a) a -> gapless a -> arg_ok (a_len a) out -> gapless out -> 0 <= a_len mapper -> arg_ok (a_len mapper) mapper -> gapless mapper ->
  a_dtype mapper = 5 -> In (a_dtype a) [1; 3; 5; 7; 9] -> In (a_dtype out) [1; 3; 5; 7; 9] -> Forall (fun k => 0 <= k < a_len mapper) (arg_vals 0 a) ->
  Forall (fun m => match int_type (a_dtype out) with Some (lo, hi, _) => lo <= m <= hi | None => False end) (arg_vals 0 mapper) ->
  exists mem, ReMapIndexCall a out mapper = Done mem /\ length mem = length (a_mem out) /\
    arg_vals 0 (mkArg (a_dtype out) mem (a_start out) (a_step out) (a_len out)) = map (fun k => nth (Z.to_nat k) (arg_vals 0 mapper) 0) (arg_vals 0 a) /\
    forall i, (Z.of_nat i < a_start out \/ a_start out + a_len out <= Z.of_nat i) -> nth_error mem i = nth_error (a_mem out) i.
Proof.
  intros HL OK G OKO GO HM OKM GM DM DA DO FA FM. unfold ReMapIndexCall. rewrite DM. cbn [Z.eqb Pos.eqb negb].
  assert (E : exists w, remap_bits (a_dtype out) = Some w /\ 0 < w /\ forall m, match int_type (a_dtype out) with Some (lo, hi, _) => lo <= m <= hi | None => False end -> - 2 ^ (w - 1) <= m < 2 ^ (w - 1)).
  { clear FM. cbn [In] in DO. repeat (destruct DO as [DO | DO]); try contradiction; rewrite <- DO; eexists; (split; [reflexivity|split; [reflexivity|]]); cbn [int_type]; intros m Hm; match goal with |- context [2 ^ ?e] => let v := eval vm_compute in (2 ^ e) in change (2 ^ e) with v end; cbn in Hm; lia. }
  destruct E as (w & -> & W0 & W1). assert (E2 : exists w2, remap_bits (a_dtype a) = Some w2) by (cbn [In] in DA; repeat (destruct DA as [<- | DA]); try contradiction; eexists; reflexivity). destruct E2 as (w2 & ->).
  rewrite (read_arg_right 0 (a_len a) a), (read_arg_right 0 (a_len mapper) mapper), (read_arg_right 0 (a_len a) out) by auto. cbn [undef obind].
  assert (LA := arg_vals_length 0 _ a OK). assert (LO := arg_vals_length 0 _ out OKO). assert (LM := arg_vals_length 0 _ mapper OKM).
  rewrite Forall_forall in FA, FM. rewrite (Bins2Proofs.remap_index w (arg_vals 0 a) (arg_vals 0 mapper) (arg_vals 0 out) 0 W0).
  2: congruence. 2: { intros k Hk. apply FA in Hk. lia. } 2: { intros m Hm. now apply W1, FM. }
  cbn [undef obind]. set (r := map (fun k => nth (Z.to_nat k) (arg_vals 0 mapper) 0) (arg_vals 0 a)). assert (LR : length r = Z.to_nat (a_len a)) by (unfold r; now rewrite map_length).
  destruct OKO as (LO1 & LO2 & LO3). assert (ROOM : a_start out + a_len a <= Z.of_nat (length (a_mem out))). { destruct (Z.eq_dec (a_len a) 0) as [-> |]; [lia|]. destruct GO as [GO | GO]; [specialize (LO3 (a_len a - 1) ltac:(lia)); rewrite GO in LO3; lia|specialize (LO3 0 ltac:(lia)); lia]. }
  set (mem := firstn (Z.to_nat (a_start out)) (a_mem out) ++ r ++ skipn (Z.to_nat (a_start out) + length r) (a_mem out)).
  assert (L1 : length (firstn (Z.to_nat (a_start out)) (a_mem out)) = Z.to_nat (a_start out)) by (rewrite firstn_length; lia).
  exists mem. split; [reflexivity|]. split; [unfold mem; rewrite !app_length, L1, skipn_length; lia|]. split.
  - unfold arg_vals at 1. cbn [a_start a_step a_mem a_len]. apply list_ext. intros i. rewrite nth_error_map. rewrite LO1. destruct (Nat.lt_ge_cases i (Z.to_nat (a_len a))) as [H|H].
    + rewrite (nth_error_nth' _ 0%nat) by (rewrite seq_length; lia). rewrite seq_nth by lia. cbn [option_map plus]. assert (Z.to_nat (a_start out + Z.of_nat i * a_step out) = Z.to_nat (a_start out) + i)%nat as -> by (destruct GO as [-> | GO]; [lia|assert (i = 0%nat) by lia; subst i; lia]).
      unfold mem. rewrite app_nth2 by lia. rewrite L1. replace (Z.to_nat (a_start out) + i - Z.to_nat (a_start out))%nat with i by lia. rewrite app_nth1 by lia. symmetry. apply nth_error_nth'. lia.
    + rewrite (proj2 (nth_error_None _ _)) by (rewrite seq_length; lia). symmetry. apply nth_error_None. lia.
  - intros i [Hi | Hi]; unfold mem.
    + rewrite nth_error_app1 by lia. rewrite nth_error_firstn. rewrite (proj2 (Nat.ltb_lt _ _)) by lia. reflexivity.
    + rewrite nth_error_app2 by lia. rewrite L1, nth_error_app2 by lia. rewrite nth_error_skipn. f_equal. lia.
Qed.
Lemma remap_refused a out mapper : a_dtype mapper <> 5 -> ReMapIndexCall a out mapper = Error.
Proof. intros H. unfold ReMapIndexCall. replace (a_dtype mapper =? 5) with false by lia. reflexivity. Qed.
Lemma remap_nothing a out mapper : a_dtype mapper = 5 -> ~ In (a_dtype a) [1; 3; 5; 7; 9] \/ ~ In (a_dtype out) [1; 3; 5; 7; 9] -> ReMapIndexCall a out mapper = Done (a_mem out).
Proof. intros D H. unfold ReMapIndexCall. rewrite D. cbn [Z.eqb Pos.eqb negb]. destruct H as [H | H]; rewrite (remap_none _ H); [reflexivity|now destruct (remap_bits (a_dtype a))]. Qed.
