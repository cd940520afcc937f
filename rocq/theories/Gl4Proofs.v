(** Proofs about GroupFromLexSort: any index, what is refused, and counterexamples. *)
From Verif Require Import Base Mem SortModel SortSpec Sort8Proofs AllModel AllSpec EaModel EaSpec Ea2Proofs LxModel LxSpec Lx3Proofs GlModel GlSpec GlProofs Gl2Proofs.
Local Open Scope Z_scope.

Lemma listed_groups n junk a size v cut f b lt : index_array n a -> items_array n size v -> size <> 7%nat -> not_given cut -> filter_fine (a_len a) f -> from_one b ->
  0 < a_len a -> Forall (fun x => 0 <= x < n) (arg_vals 0 a) ->
  (forall x y, In x (arg_vals [] v) -> In y (arg_vals [] v) -> lt x y = false -> lt y x = false -> x = y) -> sorted lt (map (item_at v) (arg_vals 0 a)) ->
  exists g, GroupFromLexSortAll junk a size v cut f b = Done g /\ g_dtype g = key_type a /\ g_index g = arg_vals 0 a /\
    length (g_keys g) = Z.to_nat n /\ length (g_count g) = S (length (g_first g)) /\ nth_error (g_count g) 0 = Some 0 /\
    grouping (item_at v) 1 1 (arg_vals 0 a) (g_keys g) (g_first g) (g_count g) /\
    (forall x, 0 <= x < n -> ~ In x (arg_vals 0 a) -> zrd (g_keys g) x = Some junk).
Proof.
  intros HA HV S7 NC HF HB L0 HR HE HS. rewrite (call_is junk n a size v f b HA HV HF), (not_cut (a_len a) cut NC), (base_right b HB). cbn [obind].
  pose proof (vals_len n size v HV) as LV. rewrite Forall_forall in HR. pose proof HV as (N0 & _ & _ & IV).
  destruct (group_items size 1 lt (arg_vals [] v) (arg_vals 0 a) junk S7 IV HE) as (key & first & cnt & E & LK & LC & C0 & G & J).
  - intros j Hj. apply HR in Hj. lia.
  - exact HS.
  - intros E. apply (f_equal (@length Z)) in E. rewrite arg_vals_len in E. cbn in E. lia.
  - left. lia.
  - rewrite E. cbn [undef obind]. eexists. split; [reflexivity|]. cbn [g_dtype g_index g_keys g_first g_count]. split; [reflexivity|]. split; [reflexivity|]. split; [congruence|].
    split; [exact LC|]. split; [exact C0|]. split; [exact G|]. intros x Hx NI. apply J; [lia|exact NI].
Qed.

Lemma refused_groups :
  (forall junk a size v cut f b, a_len v < a_len a \/ ~ In (a_dtype a) [5; 7; 9] -> GroupFromLexSortAll junk a size v cut f b = Error) /\
  (forall n junk a size v f b, index_array n a -> items_array n size v ->
     (forall c, ~ In (a_dtype c) [7; 9] -> GroupFromLexSortAll junk a size v (PArray c) f b = Error) /\
     (forall c x, arg_ok (a_len c) c -> gapless c -> 0 < a_len c -> nth_error (arg_vals 0 c) (Z.to_nat (a_len c - 1)) = Some x -> x <> a_len a ->
        GroupFromLexSortAll junk a size v (PArray c) f b = Error) /\
     (forall cut c, cut_fine (a_len a) cut -> a_dtype c = 0 -> a_len c <> a_len a -> GroupFromLexSortAll junk a size v cut (PArray c) b = Error) /\
     (forall cut z, cut_fine (a_len a) cut -> ~ long z -> GroupFromLexSortAll junk a size v cut f (Some z) = Error)).
Proof.
  assert (K : forall n junk a size v cut f b, index_array n a -> items_array n size v -> (forall bits, GroupCall junk bits a size v cut f b = Error) -> GroupFromLexSortAll junk a size v cut f b = Error).
  { intros n junk a size v cut f b (HD & HL & _) (_ & (VL & _) & _) H. unfold GroupFromLexSortAll. rewrite (proj2 (Z.ltb_ge _ _)) by lia. destruct HD as [E|[E|[E|[]]]]; rewrite <- E; apply H. }
  split.
  - intros junk a size v cut f b H. unfold GroupFromLexSortAll. destruct (Z.ltb_spec (a_len v) (a_len a)); [reflexivity|]. destruct H as [H|H]; [lia|]. cbn [In] in H.
    destruct (a_dtype a) as [|p|p]; try reflexivity. do 4 (try (destruct p as [p|p|]); try reflexivity); exfalso; apply H; auto.
  - intros n junk a size v f b HA HV. split; [|split; [|split]].
    + intros c NC. apply (K n); auto. intros bits. unfold GroupCall. cbn [read_cutoffs]. unfold int64_type. cbn [In] in NC.
      destruct (Z.eqb_spec (a_dtype c) 7) as [E|E]; [exfalso; apply NC; auto|]. destruct (Z.eqb_spec (a_dtype c) 9) as [E'|E']; [exfalso; apply NC; auto|]. reflexivity.
    + intros c x (_ & HS0 & HR) HG HL HX NX. apply (K n); auto. intros bits. unfold GroupCall. cbn [read_cutoffs]. destruct (int64_type (a_dtype c)); [|reflexivity].
      pose proof (HR (a_len c - 1) ltac:(lia)) as Hl.
      assert (E : a_start c + (a_len c - 1) * a_step c = a_start c + a_len c - 1) by (destruct HG as [-> | G]; [lia|]; replace (a_len c) with 1 by lia; lia). rewrite E in Hl.
      assert (EL : zrd (a_mem c) (a_start c + a_len c - 1) = Some x).
      { unfold zrd. rewrite (proj2 (Z.leb_le 0 (a_start c + a_len c - 1))) by lia. destruct (nth_error (a_mem c) (Z.to_nat (a_start c + a_len c - 1))) as [y|] eqn:Ex; [|apply nth_error_None in Ex; lia].
        rewrite <- HX. symmetry. unfold arg_vals. rewrite nth_error_map, nth_error_seq. rewrite (proj2 (Nat.ltb_lt _ _)) by lia. cbn [option_map]. f_equal. rewrite <- (nth_error_nth _ _ 0 Ex). f_equal.
        rewrite <- E. rewrite Nat2Z.inj_add, Z2Nat.id by lia. reflexivity. }
      rewrite EL. cbn [undef obind]. rewrite (proj2 (Z.eqb_neq _ _) NX). reflexivity.
    + intros cut c HC H0 HN. apply (K n); auto. intros bits. unfold GroupCall. destruct (cut_done (a_len a) cut HC) as (o & ->). cbn [obind check_filter].
      rewrite H0, (proj2 (Z.eqb_neq _ _) HN). reflexivity.
    + intros cut z HC HZ. apply (K n); auto. intros bits. unfold GroupCall. destruct (cut_done (a_len a) cut HC) as (o & ->). cbn [obind].
      unfold long in HZ. destruct (check_filter (a_len a) f) as [u| |] eqn:Ef; cbn [obind]; [|reflexivity|exfalso; destruct f as [|fa|]; try discriminate; cbn in Ef; destruct ((a_dtype fa =? 0) && negb (a_len fa =? a_len a)); discriminate].
      cbn [base_index]. destruct (Z.leb_spec (- 2 ^ 63) z); [|reflexivity]. destruct (Z.ltb_spec z (2 ^ 63)); [lia|reflexivity].
Qed.

Lemma small_index l : length l = 2%nat -> index_array 2 (block 7 l).
Proof.
  intros L. split; [cbn; auto|]. unfold block. cbn [a_len a_dtype]. rewrite L. split; [lia|]. split; [|split; [now left|discriminate]].
  split; [reflexivity|]. cbn [a_start a_mem a_len a_step]. rewrite L. split; lia.
Qed.
Lemma small_items x y : 0 <= x < 256 -> 0 <= y < 256 -> items_array 2 1 (mkArg 1 [[x]; [y]] 0 1 2).
Proof.
  intros Hx Hy. split; [lia|]. split; [|split; [now left|]].
  - split; [reflexivity|]. split; [cbn; lia|]. intros i. cbn. lia.
  - change (arg_vals [] (mkArg 1 [[x]; [y]] 0 1 2)) with [[x]; [y]]. constructor; [split; [reflexivity|constructor; [lia|constructor]]|]. constructor; [split; [reflexivity|constructor; [lia|constructor]]|]. constructor.
Qed.
Lemma filter_ignored : exists a v f g, index_array 2 a /\ items_array 2 1 v /\ arg_ok 2 f /\ gapless f /\ arg_vals true f = [true; false] /\
    GroupFromLexSortAll 9 a 1 v PNone (PArray f) None = Done g /\ zrd (g_keys g) 1 <> Some 0 /\ nth_error (g_count g) 0 = Some 0.
Proof.
  exists (block 7 [0; 1]), (mkArg 1 [[1]; [2]] 0 1 2), (mkArg 0 [true; false] 0 1 2), (mkGroups 7 [1; 2] [0; 1] [0; 1; 1] None [0; 1]).
  split; [now apply small_index|]. split; [apply small_items; lia|]. split; [split; [reflexivity|]; split; [cbn; lia|]; intros i; cbn; lia|]. split; [now left|]. split; [reflexivity|].
  split; [vm_compute; reflexivity|]. split; [discriminate|reflexivity].
Qed.
Lemma gaps_ignored : exists a v g, In (a_dtype a) [5; 7; 9] /\ arg_ok 2 a /\ arg_vals 0 a = [0; 1] /\ items_array 2 1 v /\
    GroupFromLexSortAll 9 a 1 v PNone PNone None = Done g /\ zrd (g_keys g) 1 = Some 9.
Proof.
  exists (mkArg 7 [0; 0; 1; 1] 0 2 2), (mkArg 1 [[1]; [2]] 0 1 2), (mkGroups 7 [1; 9] [0] [0; 2] None [0; 1]). split; [cbn; auto|]. split; [split; [reflexivity|]; split; [cbn; lia|]; intros i; cbn; lia|].
  split; [reflexivity|]. split; [apply small_items; lia|]. split; vm_compute; reflexivity.
Qed.
Lemma index_changed : exists a v g, index_array 2 a /\ items_array 2 1 v /\ GroupFromLexSortAll 9 a 1 v (PArray (block 7 [1; 2])) PNone None = Done g /\ g_index g <> arg_vals 0 a.
Proof.
  exists (block 7 [0; 0]), (mkArg 1 [[1]; [2]] 0 1 2), (mkGroups 7 [1; 2] [0; 1] [0; 1; 1] (Some [1; 2]) [0; 1]). split; [now apply small_index|]. split; [apply small_items; lia|].
  split; [vm_compute; reflexivity|]. discriminate.
Qed.
