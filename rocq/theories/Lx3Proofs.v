(** LexSort32 and LexSort64 from their arguments to their results. *)
From Verif Require Import Base Mem MemLemmas Num SortModel SortSpec SortProofs Sort5Proofs Sort6Proofs Sort8Proofs AllModel AllSpec AllProofs All4Proofs EaModel EaSpec EaProofs Ea2Proofs Ea3Proofs LxModel LxSpec LxProofs Lx2Proofs.
Local Open Scope Z_scope.

Lemma arg_vals_len {X} (z : X) a : length (arg_vals z a) = Z.to_nat (a_len a).
Proof. unfold arg_vals. now rewrite map_length, seq_length. Qed.
Lemma each_done {X Y} (f : X -> outcome Y) (g : X -> Y) l : (forall x, In x l -> f x = Done (g x)) -> each f l = Done (map g l).
Proof. induction l as [|x l IH]; intros H; [reflexivity|]. cbn [each map]. rewrite (H x (or_introl eq_refl)). cbn [obind]. rewrite IH by (intros y Hy; apply H; now right). reflexivity. Qed.

Lemma check_direction_right n d : direction_ok n d -> check_direction n d = Done tt.
Proof. destruct d as [|b|a|]; try reflexivity. intros (_ & (L & _) & _). cbn [check_direction]. now rewrite L, Z.eqb_refl. Qed.
Lemma read_direction_right n d : direction_ok n d -> read_direction n d = Done (directions n d).
Proof.
  destruct d as [|b|a|]; try reflexivity. intros (_ & (L & HS & HI) & G & B). cbn [read_direction directions]. unfold arg_vals. rewrite L, Nat2Z.id, map_map.
  apply each_done. intros i Hi. apply in_seq in Hi. assert (E : a_start a + Z.of_nat i * a_step a = a_start a + Z.of_nat i) by (destruct G as [-> | G]; [lia|]; replace i with 0%nat by lia; lia).
  rewrite E. specialize (HI (Z.of_nat i) ltac:(lia)). rewrite E in HI. unfold zrd. rewrite (proj2 (Z.leb_le 0 (a_start a + Z.of_nat i))) by lia.
  destruct (nth_error (a_mem a) (Z.to_nat (a_start a + Z.of_nat i))) as [b|] eqn:Eb; [|apply nth_error_None in Eb; lia]. cbn [undef obind].
  rewrite (nth_error_nth _ _ 0 Eb). apply nth_error_In in Eb. rewrite Forall_forall in B. destruct (B b Eb) as [-> | ->]; reflexivity.
Qed.
Lemma directions_len n d : direction_ok n d -> length (directions n d) = n.
Proof. destruct d as [|b|a|]; cbn [directions]; try (intros _; apply repeat_length). intros (_ & (L & _) & _). rewrite map_length, arg_vals_len, L. apply Nat2Z.id. Qed.

Lemma sorted_columns dirs (cs : list (column cell)) : flat_map (fun x => sort_column (fst x) (snd x)) (combine dirs (map inf_of cs)) = flat_map (fun x => sort_column (fst x) (inf_of (snd x))) (combine dirs cs).
Proof. revert cs. induction dirs as [|d dirs IH]; intros [|c cs]; try reflexivity. cbn [map combine flat_map fst snd]. now rewrite IH. Qed.
Lemma combined n dirs cs : Forall (shaped n) cs -> Forall items_ok cs -> Forall (fun c : bool * column cell => shaped n (snd c) /\ items_ok (snd c)) (combine dirs cs).
Proof. intros H1 H2. apply Forall_forall. intros [d c] H. apply in_combine_r in H. rewrite Forall_forall in H1, H2. cbn [snd]. auto. Qed.

Section Call.
  Context (m : threads) (bits n : Z) (cs : list (column cell)) (dir : direction).
  Hypothesis NE : cs <> [].
  Hypothesis HS : Forall (shaped n) cs.
  Hypothesis HI : Forall items_ok cs.
  Hypothesis HD : direction_ok (length cs) dir.
  Notation cols := (combine (directions (length cs) dir) cs).

  Lemma n_nonneg : 0 <= n.
  Proof. destruct cs as [|c cs']; [contradiction|]. apply Forall_inv in HS. destruct HS as (_ & _ & L & _). lia. Qed.
  (* the call after the checks of the columns *)
  Lemma call_shape cut index :
    LexSortCall m bits (map OArray cs) cut dir index =
    obind (read_cutoffs n cut) (fun c => obind (read_index bits n index) (fun start =>
      let sorted := flat_map (fun x => sort_column (fst x) (inf_of (snd x))) cols in
      let junk := map (t_junk m) (seq 0 (Z.to_nat n)) in
      let run given size := match c with
        | Some ends => LexSort_cutoffs (t_order m) junk given ends n sorted
        | None => sort_columns m junk 0 sorted (match given with Some l => l | None => arange size end)
        end in
      match start with
      | Index a => if (bits =? 32) && (2 ^ 31 <=? a_len a) then Undefined
          else obind (undef (read_arg a)) (fun l => obind (undef (run (Some l) (a_len a))) (fun r => Done (seen a (replaced a r))))
      | EmptyIndex => match c with None => if n =? 0 then Done [] else Undefined | _ => if (bits =? 32) && (2 ^ 31 <=? n) then Undefined else undef (run None n) end
      | NoIndex => if (bits =? 32) && (2 ^ 31 <=? n) then Undefined else undef (run None n)
      end)).
  Proof using NE HS HD.
    clear HI. unfold LexSortCall. rewrite (build_all n cs HS). cbn [obind]. rewrite !map_length, (check_direction_right _ _ HD), (read_direction_right _ _ HD). cbn [obind].
    rewrite sorted_columns. set (sorted := flat_map _ _). destruct cs as [|c0 cs']; [contradiction|]. cbn [map]. assert (L : Z.of_nat (length (i_vals (inf_of c0))) = n).
    { apply Forall_inv in HS. destruct HS as (_ & _ & L & _). exact L. }
    rewrite L. destruct (read_cutoffs n cut) as [c| |]; cbn [obind]; try reflexivity. destruct (read_index bits n index) as [s| |]; cbn [obind]; try reflexivity. destruct s; destruct c; reflexivity.
  Qed.

  Lemma not_cut c : not_given c -> read_cutoffs n c = Done None.
  Proof. intros [-> | ->]; reflexivity. Qed.
  Lemma not_index c : not_given c -> read_index bits n c = Done NoIndex.
  Proof. intros [-> | ->]; reflexivity. Qed.

  Lemma order_of lts (f k : Z) r : 0 <= f -> 0 <= k -> f + k <= n -> strict_weak (shifted f (lex_lt lts)) ->
    (forall x y, inside n x -> inside n y -> (lex_lt lts x y = true <-> row_before cols x y)) ->
    argsort (shifted f (lex_lt lts)) k r -> in_row_order cols f k r.
  Proof.
    intros Hf Hk Hn (SA & _) HB (P & HO). split; [exact P|]. intros i j x y Hij Hx Hy.
    assert (R : forall p z, nth_error r p = Some z -> inside n (f + z)).
    { intros p z Hz. apply nth_error_In in Hz. apply (Permutation_in _ P), arange_In in Hz. unfold inside. lia. }
    pose proof (R i x Hx) as Rx. pose proof (R j y Hy) as Ry. unfold rows_alike. rewrite <- !HB by assumption. specialize (HO i j x y Hij Hx Hy). unfold shifted in HO, SA.
    destruct (lex_lt lts (f + x) (f + y)) eqn:E1; [now left|]. destruct HO as [HO | (HO & L)]; [discriminate|]. right. rewrite HO. split; [split; discriminate|exact L].
  Qed.

  Lemma sorted_call cut index : not_given cut -> not_given index -> (bits = 32 -> n < 2 ^ 31) ->
    exists r, LexSortCall m bits (map OArray cs) cut dir index = Done r /\ in_row_order cols 0 n r.
  Proof.
    intros HC HX HB. rewrite call_shape, (not_cut _ HC), (not_index _ HX). cbn [obind].
    destruct (columns_order n cols (combined n _ cs HS HI)) as (lts & C1 & C2). pose proof n_nonneg as N0.
    destruct (sort_all m (map (t_junk m) (seq 0 (Z.to_nat n))) (arange n) _ lts 0 (arange n) C1) as (r & E & SR); [auto|rewrite map_length, seq_length, arange_length; lia|].
    exists r. cbv zeta. rewrite E. replace ((bits =? 32) && (2 ^ 31 <=? n)) with false.
    - split; [reflexivity|]. assert (SW : strict_weak (lex_lt lts)) by (apply lex_sw; clear - C1; induction C1; constructor; tauto).
      apply (order_of lts 0 n); try lia; [exact SW|intros x y Hx Hy; now apply C2|]. now apply argsort_ok.
    - symmetry. apply andb_false_iff. destruct (Z.eqb_spec bits 32); [right; apply Z.leb_gt; auto|now left].
  Qed.

  Lemma firstn_exact {X} (l : list X) k : k = length l -> firstn k l = l.
  Proof. intros ->. apply firstn_all. Qed.
  Lemma seen_replaced a r : arg_ok (a_len a) a -> gapless a -> length r = Z.to_nat (a_len a) -> seen a (replaced a r) = r.
  Proof using.
    intros (_ & HS0 & HR) G L. unfold seen, replaced. apply list_ext. intros i. rewrite nth_error_map, nth_error_seq. destruct (Nat.ltb_spec i (Z.to_nat (a_len a))) as [Hi | Hi].
    - cbn [option_map]. assert (E : a_start a + Z.of_nat (0 + i) * a_step a = a_start a + Z.of_nat i) by (destruct G as [-> | G]; [lia|]; replace i with 0%nat by lia; lia). rewrite E.
      replace (Z.to_nat (a_start a + Z.of_nat i)) with (Z.to_nat (a_start a) + i)%nat by lia.
      rewrite app_nth2; rewrite firstn_length_le by lia; [|lia]. replace (Z.to_nat (a_start a) + i - Z.to_nat (a_start a))%nat with i by lia. rewrite app_nth1 by lia. symmetry. apply nth_error_nth'. lia.
    - cbn [option_map]. symmetry. apply nth_error_None. lia.
  Qed.

  Lemma index_call cut a : not_given cut -> index_given bits n a -> (bits = 32 \/ bits = 64) -> (bits = 32 -> a_len a < 2 ^ 31) ->
    exists r, LexSortCall m bits (map OArray cs) cut dir (PArray a) = Done r /\ index_order cols (arg_vals 0 a) r.
  Proof.
    intros HC (HT & HL & HA & HG & HV) HW HB. rewrite call_shape, (not_cut _ HC). cbn [obind].
    assert (RI : read_index bits n (PArray a) = Done (Index a)).
    { cbn [read_index]. unfold int64_type. rewrite (proj2 (Z.ltb_lt 0 (a_len a))), (proj2 (Z.ltb_ge n (a_len a))) by lia.
      destruct HW as [-> | ->]; cbn [Z.eqb Pos.eqb] in HT |- *; [rewrite HT; reflexivity|]. destruct HT as [-> | ->]; reflexivity. }
    rewrite RI. cbn [obind]. cbv zeta. replace ((bits =? 32) && (2 ^ 31 <=? a_len a)) with false.
    - rewrite (read_arg_right 0 (a_len a) a) by (try lia; assumption). cbn [undef obind].
      destruct (columns_order n cols (combined n _ cs HS HI)) as (lts & C1 & C2).
      assert (IN : forall x, In x (arg_vals 0 a) -> inside n x) by (rewrite Forall_forall in HV; exact HV).
      destruct (sort_all m (map (t_junk m) (seq 0 (Z.to_nat n))) (arange n) _ lts 0 (arg_vals 0 a) C1) as (r & E & SR).
      + intros x Hx. apply arange_In. now apply IN.
      + rewrite map_length, seq_length, arg_vals_len. lia.
      + rewrite E. cbn [undef obind]. exists r. split.
        * rewrite seen_replaced; [reflexivity|exact HA|exact HG|]. rewrite (stable_length _ _ _ SR), arg_vals_len. reflexivity.
        * exists (lex_lt lts). split; [|exact SR]. intros x y Hx Hy. apply C2; auto.
    - symmetry. apply andb_false_iff. destruct (Z.eqb_spec bits 32); [right; apply Z.leb_gt; auto|now left].
  Qed.

  Lemma parts_nth cutoffs : forall s k e, nth_error cutoffs k = Some e -> In (match k with O => s | S k' => nth k' cutoffs 0 end, e - match k with O => s | S k' => nth k' cutoffs 0 end) (parts s cutoffs).
  Proof using.
    induction cutoffs as [|c l IH]; intros s [|k] e H; try discriminate.
    - injection H as <-. now left.
    - right. specialize (IH c k e H). destruct k as [|k]; exact IH.
  Qed.
  Lemma cut_read a : cutoffs_given n a -> read_cutoffs n (PArray a) = Done (Some (arg_vals 0 a)).
  Proof using.
    intros (HT & HL & HA & HG & HC).
    assert (RA : read_arg a = Some (arg_vals 0 a)) by (apply (read_arg_right 0 (a_len a)); [lia|exact HA|exact HG]).
    cbn [read_cutoffs]. replace (int64_type (a_dtype a)) with true by (unfold int64_type; destruct HT as [-> | ->]; reflexivity).
      destruct HA as (_ & HS0 & HR). pose proof (HR (a_len a - 1) ltac:(lia)) as Hl.
      assert (E : a_start a + (a_len a - 1) * a_step a = a_start a + a_len a - 1) by (destruct HG as [-> | G]; [lia|]; replace (a_len a) with 1 by lia; lia). rewrite E in Hl.
      assert (EL : zrd (a_mem a) (a_start a + a_len a - 1) = Some n).
      { unfold zrd. rewrite (proj2 (Z.leb_le 0 (a_start a + a_len a - 1))) by lia. destruct (nth_error (a_mem a) (Z.to_nat (a_start a + a_len a - 1))) as [x|] eqn:Ex; [|apply nth_error_None in Ex; lia].
        f_equal. assert (LN : nth_error (arg_vals 0 a) (Z.to_nat (a_len a - 1)) = Some x).
        { unfold arg_vals. rewrite nth_error_map, nth_error_seq. rewrite (proj2 (Nat.ltb_lt _ _)) by lia. cbn [option_map]. f_equal. rewrite <- (nth_error_nth _ _ 0 Ex). f_equal.
          rewrite <- E. rewrite Nat2Z.inj_add, Z2Nat.id by lia. reflexivity. }
        pose proof (arg_vals_len 0 a) as AL. revert HC LN AL. generalize (arg_vals 0 a) as l. generalize 0 at 1 as s. intros s l. clear - HL. remember (Z.to_nat (a_len a - 1)) as k. intros HC LN AL.
        assert (length l = S k) as AK by lia. clear AL Heqk HL a. revert s k HC LN AK. induction l as [|c l IH]; intros s k HC LN AK; [discriminate|]. cbn [cutoffs_ok] in HC. destruct HC as (_ & HC).
        destruct l as [|c' l]; [cbn in AK; injection AK as <-; injection LN as <-; cbn [cutoffs_ok] in HC; exact HC|]. destruct k as [|k]; [discriminate|]. apply (IH c k HC LN). injection AK as AK. cbn [length]. lia. }
      rewrite EL. cbn [undef obind]. rewrite Z.eqb_refl, RA. reflexivity.
  Qed.
  Lemma cutoffs_call index a : not_given index -> cutoffs_given n a -> fair (t_order m) -> (bits = 32 -> n < 2 ^ 31) ->
    exists r, LexSortCall m bits (map OArray cs) (PArray a) dir index = Done r /\ length r = Z.to_nat n /\
      forall k e, nth_error (arg_vals 0 a) k = Some e -> let s := match k with O => 0 | S k' => nth k' (arg_vals 0 a) 0 end in
        in_row_order cols s (e - s) (firstn (Z.to_nat (e - s)) (skipn (Z.to_nat s) r)).
  Proof.
    intros HX HG HF HB. pose proof HG as (_ & _ & _ & _ & HC). rewrite call_shape, (not_index _ HX). pose proof n_nonneg as N0.
    rewrite (cut_read a HG). cbn [obind]. cbv zeta. replace ((bits =? 32) && (2 ^ 31 <=? n)) with false.
    - destruct (columns_order n cols (combined n _ cs HS HI)) as (lts & C1 & C2).
      destruct (LexSort_cutoffs_ok (t_order m) (map (t_junk m) (seq 0 (Z.to_nat n))) (arg_vals 0 a) n _ lts HF HC ltac:(rewrite map_length, seq_length; lia) C1) as (r & E & LR & HP).
      exists r. rewrite E. split; [reflexivity|]. split; [exact LR|]. intros k e Hk. set (s := match k with O => 0 | S k' => nth k' (arg_vals 0 a) 0 end). pose proof (parts_nth (arg_vals 0 a) 0 k e Hk) as IP. fold s in IP. pose proof (HP _ IP) as AS. cbn [fst snd] in AS.
      pose proof (parts_in _ _ _ _ HC IP) as PB. cbn [fst snd] in PB.
      assert (SW : strict_weak (lex_lt lts)) by (apply lex_sw; clear - C1; induction C1; constructor; tauto).
      apply (order_of lts); try lia; [|intros x y Hx Hy; now apply C2|exact AS].
      unfold shifted. destruct SW as (S1 & S2). split; intros; [now apply S1|now apply S2].
    - symmetry. apply andb_false_iff. destruct (Z.eqb_spec bits 32); [right; apply Z.leb_gt; auto|now left].
  Qed.

  (** ** What is refused *)
  Lemma cut_done c : cut_fine n c -> exists o, read_cutoffs n c = Done o.
  Proof. intros [H | (a & -> & H)]; [exists None; now apply not_cut|exists (Some (arg_vals 0 a)); now apply cut_read]. Qed.
  Lemma bad_cut_type a index : a_dtype a <> 7 -> a_dtype a <> 9 -> LexSortCall m bits (map OArray cs) (PArray a) dir index = Error.
  Proof using NE HS HD. intros H7 H9. rewrite call_shape. cbn [read_cutoffs]. unfold int64_type. rewrite (proj2 (Z.eqb_neq _ _) H7), (proj2 (Z.eqb_neq _ _) H9). reflexivity. Qed.
  Lemma bad_cut_last a index x : arg_ok (a_len a) a -> gapless a -> 0 < a_len a -> nth_error (arg_vals 0 a) (Z.to_nat (a_len a - 1)) = Some x -> x <> n ->
    LexSortCall m bits (map OArray cs) (PArray a) dir index = Error.
  Proof using NE HS HD.
    intros (_ & HS0 & HR) HG HL HX NX. rewrite call_shape. cbn [read_cutoffs]. destruct (int64_type (a_dtype a)); [|reflexivity].
    pose proof (HR (a_len a - 1) ltac:(lia)) as Hl.
    assert (E : a_start a + (a_len a - 1) * a_step a = a_start a + a_len a - 1) by (destruct HG as [-> | G]; [lia|]; replace (a_len a) with 1 by lia; lia). rewrite E in Hl.
    assert (EL : zrd (a_mem a) (a_start a + a_len a - 1) = Some x).
    { unfold zrd. rewrite (proj2 (Z.leb_le 0 (a_start a + a_len a - 1))) by lia. destruct (nth_error (a_mem a) (Z.to_nat (a_start a + a_len a - 1))) as [y|] eqn:Ex; [|apply nth_error_None in Ex; lia].
      rewrite <- HX. symmetry. unfold arg_vals. rewrite nth_error_map, nth_error_seq. rewrite (proj2 (Nat.ltb_lt _ _)) by lia. cbn [option_map]. f_equal. rewrite <- (nth_error_nth _ _ 0 Ex). f_equal.
      rewrite <- E. rewrite Nat2Z.inj_add, Z2Nat.id by lia. reflexivity. }
    rewrite EL. cbn [undef obind]. now rewrite (proj2 (Z.eqb_neq _ _) NX).
  Qed.
  Lemma bad_index cut a : cut_fine n cut ->
    ~ In (a_dtype a) [5; 7; 9] \/ (0 < a_len a /\ (n < a_len a \/ (bits = 64 /\ a_dtype a = 5) \/ (bits = 32 /\ a_dtype a <> 5))) ->
    LexSortCall m bits (map OArray cs) cut dir (PArray a) = Error.
  Proof using NE HS HD.
    intros HC H. rewrite call_shape. destruct (cut_done cut HC) as (o & ->). cbn [obind read_index]. unfold int64_type. cbn [In] in H.
    destruct (Z.eqb_spec (a_dtype a) 5) as [E5 | N5], (Z.eqb_spec (a_dtype a) 7) as [E7 | N7], (Z.eqb_spec (a_dtype a) 9) as [E9 | N9]; cbn [orb negb]; try reflexivity; try (exfalso; lia);
      (destruct H as [H | (L & H)]; [exfalso; apply H; lia|]); rewrite (proj2 (Z.ltb_lt 0 (a_len a)) L); destruct (Z.ltb_spec n (a_len a)); try reflexivity;
      destruct H as [H | [(-> & H) | (-> & H)]]; try (exfalso; lia); try reflexivity; try (exfalso; congruence).
  Qed.
End Call.
Lemma bad_direction m bits n cs cut a index : cs <> [] -> Forall (shaped n) cs -> cut_fine n cut -> a_len a <> Z.of_nat (length cs) -> LexSortCall m bits (map OArray cs) cut (DArray a) index = Error.
Proof.
  intros NE HS HC HL. unfold LexSortCall. rewrite (build_all n cs HS). cbn [obind]. destruct cs as [|c0 cs']; [contradiction|]. cbn [map].
  assert (L : Z.of_nat (length (i_vals (inf_of c0))) = n). { apply Forall_inv in HS. destruct HS as (_ & _ & L & _). exact L. }
  rewrite L. destruct (cut_done n cut HC) as (o & ->). cbn [obind check_direction]. replace (a_len a =? _) with false; [reflexivity|]. symmetry. apply Z.eqb_neq. intros E. apply HL. rewrite E. cbn [length]. now rewrite map_length.
Qed.
Lemma bad_arrays m bits cols cut dir index : BuildArrayInfo cols = Error -> LexSortCall m bits cols cut dir index = Error.
Proof. intros E. unfold LexSortCall. now rewrite E. Qed.
