(** Proofs about GroupFromLexSort: partitions. *)
From Verif Require Import Base Mem SortModel SortSpec Sort5Proofs Sort6Proofs Sort7Proofs Sort8Proofs AllModel AllSpec EaModel EaSpec Ea2Proofs LxModel LxSpec Lx2Proofs Lx3Proofs GlModel GlSpec GlProofs Gl2Proofs.
Local Open Scope Z_scope.

Lemma parts_cut n : forall l start p c, cutoffs_ok start n l -> In p (parts start l) -> In c l -> c <= fst p \/ fst p + snd p <= c.
Proof.
  induction l as [|d l IH]; intros start p c H Hp Hc; [destruct Hp|]. destruct H as (H1 & H2). cbn [parts] in Hp. destruct Hp as [<- | Hp].
  - cbn [fst snd]. right. assert (G : forall l s c, cutoffs_ok s n l -> In c l -> s <= c).
    { clear. induction l as [|e l IH]; intros s c H Hc; [destruct Hc|]. destruct H as (H1 & H2). destruct Hc as [<- | Hc]; [lia|]. specialize (IH e c H2 Hc). lia. }
    destruct Hc as [<- | Hc]; [lia|]. specialize (G l d c H2 Hc). lia.
  - destruct Hc as [<- | Hc]; [|now apply (IH d)]. left. pose proof (parts_in d n l p H2 Hp). lia.
Qed.
Lemma partition_same n l p x y : cutoffs_ok 0 n l -> In p (parts 0 l) -> fst p <= x < fst p + snd p -> fst p <= y < fst p + snd p -> partition_of l x = partition_of l y.
Proof.
  intros H Hp Hx Hy. apply countb_ext. intros c Hc. destruct (parts_cut n l 0 p c H Hp Hc); destruct (Z.leb_spec c x), (Z.leb_spec c y); lia.
Qed.
Lemma partition_less l c x y : In c l -> x < c <= y -> (partition_of l x < partition_of l y)%nat.
Proof.
  intros Hc Hxy. unfold partition_of.
  assert (G : forall m : list Z, (countb (fun c => (c <=? x)%Z) m <= countb (fun c => (c <=? y)%Z) m)%nat).
  { induction m as [|d m IH]; [reflexivity|]. cbn [countb]. destruct (Z.leb_spec d x), (Z.leb_spec d y); lia. }
  apply in_split in Hc as (l1 & l2 & ->). rewrite !countb_app. cbn [countb]. pose proof (G l1). pose proof (G l2). destruct (Z.leb_spec c x), (Z.leb_spec c y); lia.
Qed.

Section Parts.
  Context (n : Z) (chunk : Z * Z -> list Z).
  Definition whole_of (start : Z) (l : list Z) : list Z := concat (map chunk (parts start l)).

  Lemma whole_inside : forall l start x, 0 <= start -> cutoffs_ok start n l -> (forall p, In p (parts start l) -> forall y, In y (chunk p) -> fst p <= y < fst p + snd p) ->
    In x (whole_of start l) -> start <= x < n.
  Proof.
    intros l start x H0 H HC Hx. unfold whole_of in Hx. apply in_concat in Hx as (c & Hc & Hx). apply in_map_iff in Hc as (p & <- & Hp).
    pose proof (parts_in start n l p H Hp). specialize (HC p Hp x Hx). lia.
  Qed.
  Lemma parts_ordpairs (R : Z -> Z -> Prop) : forall l start, 0 <= start -> cutoffs_ok start n l ->
    (forall p, In p (parts start l) -> ForallOrdPairs R (chunk p) /\ forall y, In y (chunk p) -> fst p <= y < fst p + snd p) ->
    (forall c x y, In c l -> x < c <= y -> R x y) -> ForallOrdPairs R (whole_of start l).
  Proof.
    induction l as [|c l IH]; intros start H0 H HC HX; [constructor|]. destruct H as (H1 & H2). unfold whole_of. cbn [parts map concat].
    destruct (HC (start, c - start) (or_introl eq_refl)) as (O1 & I1). cbn [fst snd] in I1. apply ordpairs_app; [exact O1| |].
    - apply IH; [lia|exact H2| |]; [intros p Hp; apply HC; now right|]. intros c' x y Hc'. apply HX. now right.
    - intros x y Hx Hy. apply (HX c); [now left|]. apply I1 in Hx. apply (whole_inside l c y) in Hy; [lia|lia|exact H2|]. intros p Hp. apply HC. now right.
  Qed.
  Lemma parts_perm : forall l start, 0 <= start -> cutoffs_ok start n l ->
    (forall p, In p (parts start l) -> Permutation (chunk p) (map (fun i => i + fst p) (map Z.of_nat (seq 0 (Z.to_nat (snd p)))))) ->
    Permutation (whole_of start l) (map Z.of_nat (seq (Z.to_nat start) (Z.to_nat (n - start)))).
  Proof.
    induction l as [|c l IH]; intros start H0 H HC.
    - cbn in H. subst start. rewrite Z.sub_diag. constructor.
    - destruct H as (H1 & H2). unfold whole_of. cbn [parts map concat]. pose proof (cutoffs_le _ _ _ H2).
      replace (Z.to_nat (n - start)) with (Z.to_nat (c - start) + Z.to_nat (n - c))%nat by lia. rewrite seq_app, map_app.
      replace (Z.to_nat start + Z.to_nat (c - start))%nat with (Z.to_nat c) by lia. apply Permutation_app.
      + specialize (HC (start, c - start) (or_introl eq_refl)). cbn [fst snd] in HC. rewrite HC.
        replace (map (fun i : Z => i + start) (map Z.of_nat (seq 0 (Z.to_nat (c - start))))) with (map Z.of_nat (seq (Z.to_nat start) (Z.to_nat (c - start)))); [reflexivity|].
        apply list_ext. intros k. rewrite !nth_error_map, !nth_error_seq. destruct (k <? Z.to_nat (c - start))%nat; cbn [option_map]; [f_equal; lia|reflexivity].
      + apply IH; [lia|exact H2|]. intros p Hp. apply HC. now right.
  Qed.
End Parts.

Definition start_from (s : Z) (ends : list Z) (i : Z) : Z := fold_left (fun s c => if c <=? i then c else s) ends s.
Lemma start_before : forall l n s i, cutoffs_ok s n l -> i < s -> forall s0, start_from s0 l i = s0.
Proof.
  induction l as [|c l IH]; intros n s i H Hi s0; [reflexivity|]. destruct H as (H1 & H2). cbn [start_from fold_left]. destruct (Z.leb_spec c i); [lia|]. apply (IH n c); [exact H2|lia].
Qed.
Lemma whole_index (index : list Z) n : forall l start k, 0 <= start -> cutoffs_ok start n l -> length index = Z.to_nat n -> start + Z.of_nat k < n ->
  nth_error (whole_of (fun p => map (fun i => i + fst p) (rows index (fst p) (snd p))) start l) k =
  option_map (fun x => start_from start l (start + Z.of_nat k) + x) (nth_error index (Z.to_nat start + k)).
Proof.
  induction l as [|c l IH]; intros start k H0 H HL Hk; [cbn in H; lia|]. destruct H as (H1 & H2). unfold whole_of. cbn [parts map concat fst snd]. pose proof (cutoffs_le _ _ _ H2).
  assert (L1 : length (map (fun i : Z => i + start) (rows index start (c - start))) = Z.to_nat (c - start)).
  { unfold rows. rewrite map_length, firstn_length, skipn_length. lia. }
  destruct (Z.ltb_spec (start + Z.of_nat k) c) as [L|L].
  - rewrite nth_error_app1 by lia. rewrite nth_error_map. unfold rows. rewrite nth_error_firstn, nth_error_skipn. rewrite (proj2 (Nat.ltb_lt _ _)) by lia.
    cbn [start_from fold_left]. rewrite (proj2 (Z.leb_gt _ _) L). fold (start_from start l (start + Z.of_nat k)). rewrite (start_before l n c) by (assumption || lia).
    destruct (nth_error index (Z.to_nat start + k)); cbn [option_map]; [f_equal; lia|reflexivity].
  - rewrite nth_error_app2, L1 by lia. fold (whole_of (fun p => map (fun i => i + fst p) (rows index (fst p) (snd p))) c l). rewrite (IH c (k - Z.to_nat (c - start))%nat) by (assumption || lia).
    cbn [start_from fold_left]. rewrite (proj2 (Z.leb_le _ _) L). fold (start_from c l (start + Z.of_nat k)).
    replace (c + Z.of_nat (k - Z.to_nat (c - start))) with (start + Z.of_nat k) by lia. replace (Z.to_nat c + (k - Z.to_nat (c - start)))%nat with (Z.to_nat start + k)%nat by lia. reflexivity.
Qed.

Lemma parts_inv : forall l s p, In p (parts s l) -> exists k e, nth_error l k = Some e /\ p = (match k with O => s | S k' => nth k' l 0 end, e - match k with O => s | S k' => nth k' l 0 end).
Proof.
  induction l as [|c l IH]; intros s p H; [destruct H|]. cbn [parts] in H. destruct H as [<- | H]; [exists 0%nat, c; split; reflexivity|].
  destruct (IH c p H) as (k & e & Hk & ->). exists (S k), e. split; [exact Hk|]. destruct k; reflexivity.
Qed.

Section Cut.
  Context (n : Z) (cols : list (bool * column cell)) (junk : Z) (a : arg Z) (size : nat) (v : arg (list Z)) (f : param bool) (b : option Z).
  Hypothesis HC : Forall (fun c => shaped n (snd c) /\ items_ok (snd c)) cols.
  Hypothesis HA : index_array n a.
  Hypothesis HN : a_len a = n.
  Hypothesis HV : items_array n size v.
  Hypothesis HF : filter_fine (a_len a) f.
  Hypothesis HB : from_one b.
  Hypothesis HS : forall x y, 0 <= x < n -> 0 <= y < n -> (item_at v x = item_at v y <-> rows_alike cols x y).

  Lemma groups_of_parts (ca : arg Z) : (size = 1 \/ size = 2 \/ size = 4 \/ size = 8)%nat -> cutoffs_given n ca ->
    (forall k e, nth_error (arg_vals 0 ca) k = Some e -> let s := match k with O => 0 | S k' => nth k' (arg_vals 0 ca) 0 end in
       in_row_order cols s (e - s) (firstn (Z.to_nat (e - s)) (skipn (Z.to_nat s) (arg_vals 0 a)))) ->
    let ends := arg_vals 0 ca in
    exists g us, GroupFromLexSortAll junk a size v (PArray ca) f b = Done g /\ g_dtype g = key_type a /\ g_uniques g = Some us /\ length us = length ends /\
      (forall k u, nth_error us k = Some u -> u = Z.of_nat (countb (fun i => (partition_of ends i <=? k)%nat) (g_first g))) /\
      (forall i x, nth_error (arg_vals 0 a) i = Some x -> nth_error (g_index g) i = Some (part_start ends (Z.of_nat i) + x)) /\
      grouped (part_alike ends cols) n (g_keys g) (g_first g) (g_count g) /\
      forall x y, 0 <= x < n -> 0 <= y < n -> part_before ends cols x y -> exists kx ky, zrd (g_keys g) x = Some kx /\ zrd (g_keys g) y = Some ky /\ kx < ky.
  Proof using HC HA HN HV HF HB HS.
    intros SZ HG HO. set (ends := arg_vals 0 ca) in *. cbv zeta. rewrite (call_is junk n a size v f b HA HV HF). rewrite HN, (cut_read n ca HG), (base_right b HB). cbn [obind]. fold ends.
    destruct HG as (_ & _ & _ & _ & CK). fold ends in CK. pose proof HA as (_ & LA & OA & GA & _). pose proof HV as (N0 & _ & _ & IV).
    assert (FP : forallb (fun p => 0 <=? snd p) (parts 0 ends) = true).
    { apply forallb_forall. intros p Hp. apply Z.leb_le. pose proof (parts_in 0 n ends p CK Hp). lia. }
    rewrite FP. destruct (order_exists n cols v HC HS) as (lt & ilt & SW & HL & HI). pose proof SW as (SA & _).
    assert (LI : length (arg_vals 0 a) = Z.to_nat n) by (rewrite arg_vals_len; congruence). pose proof (vals_len n size v HV) as LV.
    assert (HP : forall p, In p (parts 0 ends) -> in_row_order cols (fst p) (snd p) (rows (arg_vals 0 a) (fst p) (snd p))).
    { intros p Hp. destruct (parts_inv _ _ _ Hp) as (k & e & Hk & ->). exact (HO k e Hk). }
    assert (HR : forall p, In p (parts 0 ends) -> forall j, In j (rows (arg_vals 0 a) (fst p) (snd p)) -> 0 <= j < snd p).
    { intros p Hp j Hj. destruct (HP p Hp) as (P & _). apply (Permutation_in _ P) in Hj. apply in_map_iff in Hj as (k & <- & Hk). apply in_seq in Hk. lia. }
    assert (HPI : forall p j, In p (parts 0 ends) -> 0 <= j < snd p -> 0 <= fst p + j < n) by (intros p j Hp Hj; pose proof (parts_in 0 n ends p CK Hp); lia).
    destruct (group_items_cutoffs size ilt (arg_vals [] v) (arg_vals 0 a) junk ends SZ IV) as (keys & idx & first & cnt & us & E & LK & LU & LC & C0 & EI & G & HU).
    - intros x y Hx Hy E1 E2. apply (vals_in n size v HV) in Hx as (i & Hi & ->). apply (vals_in n size v HV) in Hy as (j & Hj & ->). rewrite HI in E1, E2 by assumption. apply HS; auto.
      unfold rows_alike. rewrite <- !HL by assumption. rewrite E1, E2. split; discriminate.
    - congruence.
    - rewrite LV, Z2Nat.id by lia. exact CK.
    - exact HR.
    - intros p Hp i j x y Hij Hx Hy. rewrite nth_error_map in Hx, Hy. destruct (nth_error (rows (arg_vals 0 a) (fst p) (snd p)) i) as [r|] eqn:Er; [|discriminate].
      destruct (nth_error (rows (arg_vals 0 a) (fst p) (snd p)) j) as [s|] eqn:Es; [|discriminate]. injection Hx as <-. injection Hy as <-. fold (item_at v (fst p + r)) (item_at v (fst p + s)).
      pose proof (HPI p r Hp (HR p Hp r (nth_error_In _ _ Er))) as Rr. pose proof (HPI p s Hp (HR p Hp s (nth_error_In _ _ Es))) as Rs. rewrite HI by assumption.
      destruct (HP p Hp) as (_ & HO'). destruct (HO' i j r s Hij Er Es) as [H|((_ & H) & _)].
      + apply HL in H; auto.
      + destruct (lt (fst p + s) (fst p + r)) eqn:El; [|reflexivity]. apply HL in El; auto. contradiction.
    - rewrite E. cbn [undef obind]. set (chunk := fun p : Z * Z => map (fun i => i + fst p) (rows (arg_vals 0 a) (fst p) (snd p))) in *.
      change (concat (map chunk (parts 0 ends))) with (whole_of chunk 0 ends) in EI.
      assert (PI : Permutation idx (map Z.of_nat (seq 0 (Z.to_nat n)))).
      { rewrite EI. pose proof (parts_perm n chunk ends 0 ltac:(lia) CK) as Q. rewrite Z.sub_0_r in Q. apply Q. intros p Hp. apply Permutation_map. apply HP. exact Hp. }
      assert (CI : forall p, In p (parts 0 ends) -> forall y, In y (chunk p) -> fst p <= y < fst p + snd p).
      { intros p Hp y Hy. apply in_map_iff in Hy as (j & <- & Hj). apply HR in Hj; auto. lia. }
      assert (IN : forall x, In x idx <-> 0 <= x < n).
      { intros x. split; intros H.
        - apply (Permutation_in _ PI) in H. apply in_map_iff in H as (k & <- & Hk). apply in_seq in Hk. lia.
        - apply (Permutation_in _ (Permutation_sym PI)). apply in_map_iff. exists (Z.to_nat x). split; [lia|]. apply in_seq. lia. }
      assert (LX : length idx = Z.to_nat n) by (rewrite (Permutation_length PI), map_length, seq_length; reflexivity).
      set (val := fun i : Z => (partition_of ends i, nth (Z.to_nat i) (arg_vals [] v) [])) in *.
      assert (VS : forall x y, 0 <= x < n -> 0 <= y < n -> (val x = val y <-> part_alike ends cols x y)).
      { intros x y Hx Hy. unfold part_alike. rewrite <- HS by assumption. unfold val, item_at. split; [intros H; injection H; auto|intros (-> & ->); reflexivity]. }
      assert (WI : forall p i j x y, In p (parts 0 ends) -> (i < j)%nat -> nth_error (chunk p) i = Some x -> nth_error (chunk p) j = Some y ->
        0 <= x < n /\ 0 <= y < n /\ partition_of ends x = partition_of ends y /\ (row_before cols x y \/ (rows_alike cols x y /\ x < y))).
      { intros p i j x y Hp Hij Hx Hy. pose proof (CI p Hp x (nth_error_In _ _ Hx)) as Bx. pose proof (CI p Hp y (nth_error_In _ _ Hy)) as By. pose proof (parts_in 0 n ends p CK Hp) as BP.
        split; [lia|]. split; [lia|]. split; [apply (partition_same n ends p); auto|]. unfold chunk in Hx, Hy. rewrite nth_error_map in Hx, Hy.
        destruct (nth_error (rows (arg_vals 0 a) (fst p) (snd p)) i) as [r|] eqn:Er; [|discriminate]. destruct (nth_error (rows (arg_vals 0 a) (fst p) (snd p)) j) as [s|] eqn:Es; [|discriminate].
        injection Hx as <-. injection Hy as <-. destruct (HP p Hp) as (_ & HO'). rewrite !(Z.add_comm _ (fst p)). destruct (HO' i j r s Hij Er Es) as [H|(H & L)]; [now left|right]. split; [exact H|lia]. }
      exists (mkGroups (key_type a) keys first cnt (Some us) idx), us. cbn [g_dtype g_uniques g_index g_keys g_first g_count]. split.
      { rewrite LK, Nat.sub_diag, app_nil_r, (seen_replaced a idx OA GA) by congruence. reflexivity. }
      split; [reflexivity|]. split; [reflexivity|]. split; [exact LU|]. split; [exact HU|]. split; [|split].
      + intros i x Hx. assert (Hi : (i < Z.to_nat n)%nat) by (rewrite <- LI; apply nth_error_Some; congruence).
        rewrite EI. unfold chunk. rewrite (whole_index (arg_vals 0 a) n ends 0 i) by (assumption || lia). cbn [Z.to_nat]. rewrite !Nat.add_0_l, Hx. reflexivity.
      + apply (grouped_of val (part_alike ends cols) n idx); auto; [|congruence]. rewrite EI. apply (parts_ordpairs n); [lia|exact CK| |].
        * intros p Hp. split; [|exact (CI p Hp)]. apply ordpairs_nth. intros i j x y Hij Hx Hy V. destruct (WI p i j x y Hp Hij Hx Hy) as (Rx & Ry & _ & [H|(_ & H)]); [|exact H].
          apply VS in V as (_ & (V & _)); auto. contradiction.
        * intros c x y Hc Hxy V. injection V as V _. pose proof (partition_less ends c x y Hc Hxy). lia.
      + intros x y Hx Hy. apply IN in Hx, Hy. revert x y Hx Hy. apply (keys_ascend val (part_before ends cols) idx keys first cnt G).
        * rewrite EI. apply (parts_ordpairs n); [lia|exact CK| |].
          -- intros p Hp. split; [|exact (CI p Hp)]. apply ordpairs_nth. intros i j x y Hij Hx Hy. destruct (WI p i j x y Hp Hij Hx Hy) as (Rx & Ry & PE & D). intros [H|(_ & H)]; [lia|].
             destruct D as [D|((_ & D) & _)]; [|contradiction]. apply HL in H, D; auto. rewrite (SA _ _ H) in D. discriminate.
          -- intros c x y Hc Hxy. pose proof (partition_less ends c x y Hc Hxy). intros [H'|(H' & _)]; lia.
        * intros x y Hx Hy V. apply IN in Hx, Hy. apply VS in V as (V & (V' & _)); auto. intros [H|(_ & H)]; [lia|contradiction].
  Qed.
End Cut.
