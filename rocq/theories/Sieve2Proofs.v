(** Reading one array through a mask: the array. *)
From Verif Require Import Base MaskModel MaskSpec MaskProofs.
From Verif Require Import SdsModel SdsSpec SdsProofs Sds2Proofs SieveModel SieveSpec SieveProofs.
Local Open Scope Z_scope.

Lemma read_bands_len : forall k f ends prev off b usize done out, ends <> [] -> read_bands k f ends prev off b usize done = Some out -> len out = usize.
Proof.
  intros k f. induction ends as [|e ends IH]; intros prev off b usize done out NE R; [congruence|].
  cbn [read_bands] in R. destruct (pread f off (e - prev)) as [y|] eqn:P; [|discriminate R]. apply pread_len in P.
  set (u := match ends with [] => usize - len done | _ => b end) in *.
  destruct (if e - prev =? u then Some y else match decomp k y with Some x => if len x =? u then Some x else None | None => None end) as [x|] eqn:W; [|discriminate R].
  assert (LX : len x = u).
  { destruct (Z.eqb_spec (e - prev) u); [injection W as <-; lia|]. destruct (decomp k y) as [x'|]; [|discriminate W].
    destruct (Z.eqb_spec (len x') u); [injection W as <-; assumption | discriminate W]. }
  destruct ends as [|e' ends]; [|now apply IH in R].
  cbn [read_bands] in R. injection R as <-. unfold len in *. rewrite app_length. subst u. lia.
Qed.

Lemma length_dec : forall lay bs, length (dec lay bs) = length lay.
Proof. induction lay as [|[w s] lay IH]; intros bs; [reflexivity|]. cbn [dec length]. now rewrite IH. Qed.

Lemma block_filtered_ok : forall k part f mask b dims0 dims D bpr d, part_ok k part -> Forall is_byte mask -> (0 < bpr)%nat ->
  GetBytesPerRow dims0 (fld b bItemSize) = Z.of_nat bpr -> GetBytesPerRow dims (fld b bItemSize) = Z.of_nat bpr ->
  read_block k f b dims0 = Some D -> length D = (d * bpr)%nat -> (0 < fld b ArrayBandCount -> fld b ArrayCompressedSize <> fld b ArrayUncompressedSize) ->
  0 < Z.of_nat (countb set mask) ->
  read_block_filtered k part f b dims mask (Z.of_nat (countb set mask)) 0 None = PWrote (pick D bpr mask 0 (Nat.min d (length mask))).
Proof.
  intros k part f mask b dims0 dims D bpr d PK MB BP G0 G R LD UA T. unfold read_block_filtered. rewrite G. unfold read_block in R. rewrite G0 in R.
  destruct (Z.ltb_spec 0 (fld b ArrayBandCount)) as [N | N].
  - specialize (UA N). destruct (Z.eqb_spec (fld b ArrayCompressedSize) (fld b ArrayUncompressedSize)); [contradiction|].
    destruct (pread f (fld b ArrayDataOffset) (fld b ArrayBandCount * 8)) as [hd|] eqn:P; [|discriminate R].
    assert (LU : len D = fld b ArrayUncompressedSize).
    { refine (read_bands_len _ _ _ _ _ _ _ _ _ _ R). intro E. apply (f_equal (@length Z)) in E. rewrite length_dec, repeat_length in E. change (length (@nil Z)) with 0%nat in E. lia. }
    replace d with (length D / bpr)%nat by (rewrite LD, Nat.div_mul by lia; reflexivity).
    pose proof (bands_ok k part f PK mask MB D bpr BP _ 0%nat 0 (fld b ArrayDataOffset + fld b ArrayBandCount * 8) (fld b ArrayBandSize) (fld b ArrayUncompressedSize) [] 0%nat R LU) as B.
    rewrite Nat.sub_0_r in B. apply B; cbn; try lia; try reflexivity. exists d. unfold len. rewrite LD. lia.
  - assert (H : holds k f (fld b ArrayCompressedSize) (Z.of_nat d * Z.of_nat bpr) (fld b ArrayDataOffset) D /\ fld b ArrayUncompressedSize = Z.of_nat d * Z.of_nat bpr).
    { assert (LD' : len D = Z.of_nat d * Z.of_nat bpr) by (unfold len; rewrite LD; lia).
      destruct (Z.eqb_spec (fld b ArrayCompressedSize) (fld b ArrayUncompressedSize)) as [E | NE].
      - pose proof (pread_len _ _ _ _ R) as PL. split; [|lia]. split; [assumption|]. left. split; [lia | assumption].
      - destruct (pread f (fld b ArrayDataOffset) (fld b ArrayCompressedSize)) as [bs|] eqn:P; [|discriminate R].
        destruct (decomp k bs) as [x|] eqn:DC; [|discriminate R]. destruct (Z.eqb_spec (len x) (fld b ArrayUncompressedSize)); [|discriminate R]. injection R as <-.
        split; [|lia]. split; [assumption|]. right. split; [lia|]. eauto. }
    destruct H as [H ->]. change 0 with (Z.of_nat 0). rewrite (filtered_ok k part f PK mask D bpr BP _ d _ 0%nat D H); [now rewrite Nat.sub_0_r| |lia|assumption].
    cbn [Nat.mul skipn]. rewrite <- LD. now rewrite firstn_all.
Qed.

(** ** The mask *)
Section Mask.
Context (v : view Z) (MO : mask_ok v) (CT : contiguous v).
Notation mask := (read_contiguous v).
Lemma mask_len : length mask = MaskModel.len v.
Proof.
  unfold read_contiguous. rewrite firstn_length, skipn_length. destruct (MaskModel.len v) as [|n] eqn:E; [reflexivity|].
  assert (H : mask_at v n <> None) by (destruct (MO n ltac:(lia)) as [-> | ->]; discriminate). unfold mask_at in H. rewrite CT in H. apply nth_error_Some in H. lia.
Qed.
Lemma nth_error_firstn_lt : forall {A} n (l : list A) i, (i < n)%nat -> nth_error (firstn n l) i = nth_error l i.
Proof. intros A n. induction n as [|n IH]; intros [|x l] [|i] H; try lia; try reflexivity. cbn. apply IH. lia. Qed.
Lemma nth_error_skipn_plus : forall {A} n (l : list A) i, nth_error (skipn n l) i = nth_error l (n + i).
Proof. intros A n. induction n as [|n IH]; intros [|x l] i; try reflexivity; [cbn; now destruct i|]. cbn. apply IH. Qed.
Lemma mask_nth : forall i, (i < MaskModel.len v)%nat -> nth_error mask i = mask_at v i.
Proof. intros i H. unfold read_contiguous, mask_at. rewrite nth_error_firstn_lt, nth_error_skipn_plus by assumption. rewrite CT. f_equal. lia. Qed.
Lemma on_true : forall i, on mask i = is_true v i.
Proof.
  intros i. unfold on, is_true. destruct (Nat.ltb_spec i (MaskModel.len v)) as [H | H].
  - pose proof (mask_nth i H) as E. cbn [andb]. rewrite <- E. destruct (nth_error mask i) eqn:N; [now rewrite (nth_error_nth _ _ _ N)|].
    apply nth_error_None in N. rewrite mask_len in N. lia.
  - rewrite nth_overflow by (rewrite mask_len; lia). reflexivity.
Qed.
Lemma mask_bytes : Forall is_byte mask.
Proof.
  apply Forall_forall. intros x H. apply In_nth_error in H as [i H]. assert (L : (i < MaskModel.len v)%nat) by (rewrite <- mask_len; apply nth_error_Some; congruence).
  rewrite mask_nth in H by assumption. unfold is_byte. destruct (MO i L) as [E | E]; rewrite E in H; injection H as <-; lia.
Qed.
Lemma positions_on : forall n, positions v (Z.of_nat n) = filter (on mask) (seq 0 (Nat.min n (length mask))).
Proof.
  intros n. unfold positions. rewrite Nat2Z.id. rewrite (filter_ext _ (on mask)) by (intros; symmetry; apply on_true).
  destruct (Nat.le_gt_cases n (length mask)) as [H | H]; [now rewrite Nat.min_l by lia|].
  rewrite Nat.min_r by lia. replace n with (length mask + (n - length mask))%nat at 1 by lia. rewrite seq_app, filter_app.
  replace (filter (on mask) (seq (0 + length mask) (n - length mask))) with (@nil nat); [now rewrite app_nil_r|]. symmetry.
  assert (A : forall x, In x (seq (0 + length mask) (n - length mask)) -> on mask x = false).
  { intros x Hx. apply in_seq in Hx. unfold on. rewrite nth_overflow by lia. reflexivity. }
  induction (seq (0 + length mask) (n - length mask)) as [|x l IH]; [reflexivity|]. cbn [filter]. rewrite A by now left. apply IH. intros y Hy. apply A. now right.
Qed.
Lemma positions_count : forall n, length (positions v (Z.of_nat n)) = countb set (firstn n mask).
Proof.
  intros n. rewrite positions_on, <- countb_length_filter, <- count_on by lia. cbn [skipn].
  destruct (Nat.le_gt_cases n (length mask)); [now rewrite Nat.min_l by lia|]. rewrite Nat.min_r by lia. now rewrite !firstn_all2 by lia.
Qed.
Lemma positions_all : forall n, (MaskModel.len v <= n)%nat -> length (positions v (Z.of_nat n)) = countb set mask.
Proof. intros n H. rewrite positions_count, firstn_all2; [reflexivity | rewrite mask_len; lia]. Qed.
Lemma positions_le : forall n, (length (positions v (Z.of_nat n)) <= n)%nat /\ (length (positions v (Z.of_nat n)) <= countb set mask)%nat.
Proof.
  intros n. rewrite positions_count. split.
  - pose proof (countb_le_length set (firstn n mask)). rewrite firstn_length in H. lia.
  - rewrite <- (firstn_skipn n mask) at 2. rewrite countb_app. lia.
Qed.
End Mask.

(** ** Rows of equal length *)
Lemma concat_row : forall (b : nat) (ls : list (list Z)) j x, Forall (fun l => length l = b) ls -> nth_error ls j = Some x ->
  firstn b (skipn (j * b) (concat ls)) = x.
Proof.
  intros b ls. induction ls as [|l ls IH]; intros [|j] x F E; try discriminate E; inversion F; subst.
  - injection E as <-. cbn [Nat.mul skipn concat]. rewrite firstn_app, Nat.sub_diag, firstn_all, firstn_O, app_nil_r. reflexivity.
  - cbn [concat]. rewrite <- (IH j x) by assumption. f_equal. rewrite skipn_app. rewrite skipn_all2 by lia. cbn [app]. f_equal. lia.
Qed.
Lemma row_slice : forall (bpr o n i : nat) (D : list Z), (o + n <= bpr)%nat ->
  firstn n (skipn (i * bpr + o) D) = firstn n (skipn o (firstn bpr (skipn (i * bpr) D))).
Proof. intros. rewrite skipn_firstn_comm, firstn_firstn, skipn_plus. f_equal. lia. Qed.

Lemma product_nonneg' : forall l, Forall (fun d => 0 <= d) l -> 0 <= product l.
Proof. induction 1; [unfold product; cbn; lia|]. rewrite product_cons. nia. Qed.
Lemma dot_inside : forall item dims idx, 0 <= item -> inside idx dims -> 0 <= dot idx (c_strides item dims) /\ dot idx (c_strides item dims) + item <= product dims * item.
Proof.
  intros item dims idx I H. assert (G : 0 <= dot idx (c_strides item dims) /\ dot idx (c_strides item dims) + item <= product dims * item /\ 1 <= product dims).
  { induction H as [|i d idx dims Hi H IH]; [unfold product; cbn [fold_left dot c_strides]; lia|]. destruct IH as [A [B P]]. cbn [c_strides dot]. rewrite product_cons.
    set (p := product dims) in *. assert (0 <= i * (p * item)) by nia. assert (i * (p * item) + p * item <= d * p * item) by nia. assert (1 <= d * p) by nia. lia. }
  lia.
Qed.

(** ** The array that is made *)
Section Column.
Context (v : view Z) (MO : mask_ok v) (CT : contiguous v).
Notation mask := (read_contiguous v).

Lemma taken_pick : forall dt fl item (d : nat) r ss D dt' fl', 0 <= item -> Forall (fun d => 0 <= d) r -> ss = c_strides item (Z.of_nat d :: r) ->
  len D = product (Z.of_nat d :: r) * item -> dt' = dt ->
  taken v (A dt item (Z.of_nat d :: r) ss fl D)
          (A dt' item (Z.of_nat (length (positions v (Z.of_nat d))) :: r) ss fl' (pick D (Z.to_nat (product r * item)) mask 0 (Nat.min d (length mask)))).
Proof.
  intros dt fl item d r ss D dt' fl' I F -> LD ->. pose proof (product_nonneg' r F) as PR. set (bpr := Z.to_nat (product r * item)).
  assert (BP : Z.of_nat bpr = product r * item) by (unfold bpr; apply Z2Nat.id; nia).
  rewrite product_cons in LD. assert (LDn : length D = (d * bpr)%nat) by (unfold len in LD; nia).
  unfold taken. cbn [a_dtype a_item a_dims a_strides a_flags a_data rows hd tl]. split; [reflexivity|]. split; [reflexivity|]. split; [reflexivity|]. split; [reflexivity|].
  assert (PL : length (pick D bpr mask 0 (Nat.min d (length mask))) = (length (positions v (Z.of_nat d)) * bpr)%nat).
  { rewrite pick_len by nia. rewrite positions_on by assumption. now rewrite countb_length_filter. }
  split; [rewrite product_cons; unfold len; rewrite PL; nia|].
  intros j i rest J IN. pose proof (dot_inside item r rest I IN) as [O1 O2]. rewrite <- BP in O2. set (o := dot rest (c_strides item r)) in *.
  assert (JL : (j < length (positions v (Z.of_nat d)))%nat) by (apply nth_error_Some; congruence).
  assert (IL : (i < d)%nat).
  { apply nth_error_In in J. unfold positions in J. apply filter_In in J as [J _]. apply in_seq in J. lia. }
  unfold element. cbn [a_item a_strides a_data c_strides dot]. fold o. rewrite <- BP.
  assert (K : forall (E : list Z) (m q : nat), length E = (m * bpr)%nat -> (q < m)%nat -> (0 <=? Z.of_nat q * Z.of_nat bpr + o) && (Z.of_nat q * Z.of_nat bpr + o + item <=? len E) = true).
  { intros E m q LE Q. apply andb_true_intro. split; [apply Z.leb_le; nia|]. apply Z.leb_le. unfold len. rewrite LE. nia. }
  rewrite (K _ _ _ PL JL), (K _ _ _ LDn IL). split; [|discriminate]. f_equal.
  replace (Z.to_nat (Z.of_nat j * Z.of_nat bpr + o)) with (j * bpr + Z.to_nat o)%nat by nia.
  replace (Z.to_nat (Z.of_nat i * Z.of_nat bpr + o)) with (i * bpr + Z.to_nat o)%nat by nia.
  rewrite !(row_slice bpr) by lia. f_equal. f_equal. unfold pick. apply concat_row.
  - apply Forall_forall. intros l H. apply in_map_iff in H as [q [<- H]]. apply filter_In in H as [H _]. apply in_seq in H. unfold row. rewrite firstn_length, skipn_length. nia.
  - rewrite positions_on in J by assumption. rewrite (map_nth_error _ _ _ J). reflexivity.
Qed.

Lemma read_array_inv : forall k f b a, read_array k f b = GArray a ->
  (fld b bNDim =? 0) || negb (Z.land (fld b bFlags) 0x8000 =? 0) = false /\ read_block k f b (a_dims a) = Some (a_data a) /\ len (a_data a) = product (a_dims a) * a_item a /\
  a = A (FixupDType (fld b bDType) (fld b bItemSize)) (fld b bItemSize) (block_dims b) (block_strides b) (fld b bFlags) (a_data a).
Proof.
  intros k f b a. unfold read_array. fold (block_dims b). fold (block_strides b). destruct (fld b bNDim =? 0); [discriminate|]. destruct (negb _); [discriminate|].
  destruct (read_block k f b (block_dims b)) as [bs|] eqn:R; [|discriminate].
  destruct (Z.ltb_spec (product (block_dims b) * fld b bItemSize) (len bs)); [discriminate|]. destruct (Z.ltb_spec (len bs) (product (block_dims b) * fld b bItemSize)); [discriminate|].
  intros [= <-]. cbn [a_dims a_data a_item]. repeat (split; [first [reflexivity | assumption | lia]|]). reflexivity.
Qed.

Lemma column_ok : forall k part f b a d r, part_ok k part -> read_array k f b = GArray a -> a_dims a = d :: r -> Forall (fun d => 0 <= d) (a_dims a) -> 0 <= a_item a -> c_order a ->
  (0 < fld b ArrayBandCount -> fld b ArrayCompressedSize <> fld b ArrayUncompressedSize) ->
  let trues := Z.of_nat (length (positions v d)) in
  let x := pick (a_data a) (Z.to_nat (product r * a_item a)) mask 0 (Nat.min (Z.to_nat d) (length mask)) in
  shrink trues (block_dims b) = trues :: r /\ fld b bItemSize = a_item a /\
  (exists b', finished b (trues :: r) x = GArray b' /\ taken v a b') /\
  (0 < trues -> 0 < product r * a_item a -> read_block_filtered k part f b (trues :: r) mask (Z.of_nat (countb set mask)) 0 None = PWrote x) /\
  (trues = 0 \/ product r * a_item a = 0 -> x = []).
Proof.
  intros k part f b a d r PK RA AD F I CO UA. cbn zeta. apply read_array_inv in RA as (NF & RB & LD & EA).
  assert (BD : block_dims b = d :: r) by (rewrite EA in AD; exact AD). assert (IT : fld b bItemSize = a_item a) by (rewrite EA; reflexivity).
  rewrite AD in *. inversion F as [|d0 r0 D0 F']; subst d0 r0. set (dn := Z.to_nat d). assert (ED : d = Z.of_nat dn) by (unfold dn; lia). rewrite ED in *. clear ED.
  pose proof (positions_le v MO CT dn) as [PLE PLC]. pose proof (product_nonneg' r F') as PR.
  assert (TP := taken_pick (a_dtype a) (a_flags a) (a_item a) dn r (a_strides a) (a_data a) (a_dtype a) (fld b bFlags) I F' ltac:(unfold c_order in CO; rewrite AD in CO; exact CO) LD eq_refl).
  assert (EA' : A (a_dtype a) (a_item a) (Z.of_nat dn :: r) (a_strides a) (a_flags a) (a_data a) = a) by (rewrite EA in *; cbn [a_dims a_dtype a_item a_strides a_flags a_data] in *; now rewrite BD).
  rewrite EA' in TP.
  split; [rewrite BD; cbn [shrink]; destruct (Z.ltb_spec (Z.of_nat dn) (Z.of_nat (length (positions v (Z.of_nat dn))))); [lia | reflexivity]|].
  split; [assumption|]. split; [|split].
  - eexists. split; [|exact TP]. unfold finished. rewrite IT. pose proof (proj1 (proj2 (proj2 (proj2 (proj2 TP))))) as TL. cbn [a_data a_dims a_item] in TL. rewrite TL, Z.ltb_irrefl.
    assert (DT : FixupDType (fld b bDType) (fld b bItemSize) = a_dtype a) by (rewrite EA; reflexivity). assert (ST : block_strides b = a_strides a) by (rewrite EA; reflexivity).
    rewrite IT in DT. now rewrite DT, ST.
  - intros T RP. rewrite product_cons in LD.
    apply (block_filtered_ok k part f mask b (Z.of_nat dn :: r)); try assumption.
    + now apply mask_bytes.
    + lia.
    + unfold GetBytesPerRow. cbn [fld nth]. destruct (Z.ltb_spec 0 (Z.of_nat dn)); [|lia]. rewrite product_cons, (Z.mul_comm (Z.of_nat _) (product r)), Z.div_mul by lia. rewrite IT. lia.
    + unfold GetBytesPerRow. cbn [fld nth]. destruct (Z.ltb_spec 0 (Z.of_nat (length (positions v (Z.of_nat dn))))); [|lia]. rewrite product_cons, (Z.mul_comm (Z.of_nat _) (product r)), Z.div_mul by lia. rewrite IT. lia.
    + unfold len in LD. nia.
    + lia.
  - intros [T | RP].
    + unfold pick. rewrite <- positions_on by assumption. destruct (positions v (Z.of_nat dn)); [reflexivity | cbn in T; lia].
    + rewrite RP. unfold pick. generalize (filter (on mask) (seq 0 (Nat.min dn (length mask)))). induction l as [|q l IH]; [reflexivity|]. cbn [map concat]. rewrite IH. reflexivity.
Qed.
End Column.
