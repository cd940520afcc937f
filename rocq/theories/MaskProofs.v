(** Proofs about assignment under a mask. *)
From Verif Require Import Base Mem MemLemmas Par ConvModel ConvSpec ConvProofs MaskModel MaskSpec.
Local Open Scope Z_scope.

(** ** SumBooleanMask *)
Definition within (M : Z) (l : list Z) : Prop := Forall (fun x => 0 <= x <= M) l.

Lemma vadd_length w a b : length (vadd w a b) = Nat.min (length a) (length b).
Proof. unfold vadd. now rewrite map_length, combine_length. Qed.
Lemma vadd_sum w a : forall b M N, 0 < w -> length a = length b -> within M a -> within N b -> M + N < 2 ^ w ->
  zsum (vadd w a b) = zsum a + zsum b /\ within (M + N) (vadd w a b).
Proof.
  induction a as [|x a IH]; intros [|y b] M N Hw L HA HB H; simpl in *; try discriminate; [split; [reflexivity|constructor]|].
  inversion HA; inversion HB; subst. destruct (IH b M N) as [E1 E2]; auto.
  unfold vadd in *. simpl. rewrite Z.mod_small by lia. split; [rewrite E1; lia|]. constructor; auto. lia.
Qed.
Lemma zsum_min bytes : Forall is_byte bytes -> zsum (map (Z.min 1) bytes) = Z.of_nat (countb set bytes) /\ within 1 (map (Z.min 1) bytes).
Proof.
  induction bytes as [|b l IH]; intros H; [split; [reflexivity|constructor]|]. inversion H; subst. destruct (IH H3) as [E1 E2]. unfold is_byte in H2.
  split; [|constructor; auto; lia]. cbn [map zsum countb] . simpl. rewrite E1. unfold set at 2. destruct (Z.eqb_spec b 0); simpl; lia.
Qed.
Lemma within_le M N l : within M l -> M <= N -> within N l.
Proof. intros H L. eapply Forall_impl; [|exact H]. simpl. lia. Qed.

Lemma byte_popcounts_aux vs : forall acc M, length acc = 32%nat -> within M acc -> M + Z.of_nat (length vs) <= 255 ->
  (forall v, In v vs -> length v = 32%nat /\ Forall is_byte v) ->
  let r := fold_left (fun acc v => vadd 8 acc (map (Z.min 1) v)) vs acc in
  zsum r = zsum acc + Z.of_nat (countb set (concat vs)) /\ within 255 r /\ length r = 32%nat.
Proof.
  induction vs as [|v vs IH]; intros acc M L W H HV; cbn [fold_left concat].
  - simpl. split; [lia|]. split; auto. eapply within_le; eauto. simpl in H. lia.
  - destruct (HV v (or_introl eq_refl)) as [Lv Bv]. destruct (zsum_min v Bv) as [S1 W1].
    cbn [length] in H.
    destruct (vadd_sum 8 acc (map (Z.min 1) v) M 1) as [S2 W2]; auto; try lia. { now rewrite map_length, Lv. }
    destruct (IH (vadd 8 acc (map (Z.min 1) v)) (M + 1)) as (A & B & C); auto.
    + rewrite vadd_length, map_length, L, Lv. reflexivity.
    + lia.
    + intros w Hw. apply HV. now right.
    + cbv zeta in *. rewrite A, S2, S1, countb_app. split; [lia|auto].
Qed.

Lemma unpack_sum k v M : length v = (4 * k)%nat -> within M v ->
  zsum (unpacklo k v) + zsum (unpackhi k v) = zsum v /\ within M (unpacklo k v) /\ within M (unpackhi k v) /\
  length (unpacklo k v) = (2 * k)%nat /\ length (unpackhi k v) = (2 * k)%nat.
Proof.
  intros L W.
  set (a := firstn k v). set (b := firstn k (skipn k v)). set (c := firstn k (skipn (2 * k) v)). set (d := firstn k (skipn (3 * k) v)).
  assert (E : v = a ++ b ++ c ++ d).
  { unfold a, b, c, d. rewrite <- (firstn_skipn k v) at 1. f_equal. rewrite <- (firstn_skipn k (skipn k v)) at 1. f_equal.
    replace (skipn k (skipn k v)) with (skipn (2 * k) v).
    2:{ apply list_ext. intros i. rewrite !nth_error_skipn. f_equal. lia. }
    rewrite <- (firstn_skipn k (skipn (2 * k) v)) at 1. f_equal.
    replace (skipn k (skipn (2 * k) v)) with (skipn (3 * k) v).
    2:{ apply list_ext. intros i. rewrite !nth_error_skipn. f_equal. lia. }
    rewrite firstn_all2; auto. rewrite skipn_length. lia. }
  assert (LA : length a = k /\ length b = k /\ length c = k /\ length d = k).
  { unfold a, b, c, d. rewrite !firstn_length, !skipn_length. lia. }
  unfold unpacklo, unpackhi. fold a b c d. clearbody a b c d. subst v. unfold within in *. rewrite !Forall_app in *.
  rewrite !zsum_app, !app_length. intuition lia.
Qed.
Lemma sum_lanes_ok v : length v = 32%nat -> within 255 v -> sum_lanes v = zsum v.
Proof.
  intros L W. unfold sum_lanes.
  destruct (unpack_sum 8 v 255) as (S1 & W1 & W2 & L1 & L2); auto.
  destruct (vadd_sum 16 (unpacklo 8 v) (unpackhi 8 v) 255 255) as (S3 & W3); auto; try lia.
  set (v16 := vadd 16 _ _) in *. assert (L3 : length v16 = 16%nat) by (unfold v16; rewrite vadd_length; lia).
  destruct (unpack_sum 4 v16 (255 + 255)) as (S4 & W4 & W5 & L4 & L5); auto.
  destruct (vadd_sum 32 (unpacklo 4 v16) (unpackhi 4 v16) (255 + 255) (255 + 255)) as (S6 & W6); auto; try lia.
  set (v32 := vadd 32 _ _) in *. assert (L6 : length v32 = 8%nat) by (unfold v32; rewrite vadd_length; lia).
  destruct (unpack_sum 2 v32 (255 + 255 + (255 + 255))) as (S7 & W7 & W8 & L7 & L8); auto.
  destruct (vadd_sum 64 (unpacklo 2 v32) (unpackhi 2 v32) (255 + 255 + (255 + 255)) (255 + 255 + (255 + 255))) as (S9 & W9); auto; try lia.
Qed.
Lemma byte_popcounts_ok vs : (length vs <= 255)%nat -> (forall v, In v vs -> length v = 32%nat /\ Forall is_byte v) ->
  sum_lanes (byte_popcounts vs) = Z.of_nat (countb set (concat vs)).
Proof.
  intros L H. destruct (byte_popcounts_aux vs (repeat 0 32) 0) as (A & B & C); auto; try lia.
  { repeat constructor; lia. }
  unfold byte_popcounts. cbv zeta in *. rewrite sum_lanes_ok by auto. rewrite A. reflexivity.
Qed.
Lemma sum_blocks_ok fuel : forall vs r, (length vs <= fuel)%nat -> (forall v, In v vs -> length v = 32%nat /\ Forall is_byte v) ->
  sum_blocks fuel vs r = Some (r + Z.of_nat (countb set (concat vs))).
Proof.
  induction fuel as [|f IH]; intros vs r L H.
  - destruct vs; [simpl; f_equal; lia|simpl in L; lia].
  - destruct vs as [|v0 vs0] eqn:E; [simpl; f_equal; lia|]. rewrite <- E in *. replace (sum_blocks (S f) vs r) with
      (let n := Nat.min 255 (length vs) in sum_blocks f (skipn n vs) (r + sum_lanes (byte_popcounts (firstn n vs)))) by (now rewrite E).
    cbv zeta. set (n := Nat.min 255 (length vs)).
    assert (P : (0 < length vs)%nat) by (rewrite E; simpl; lia).
    rewrite IH.
    + rewrite byte_popcounts_ok.
      * f_equal. rewrite <- Z.add_assoc, <- Nat2Z.inj_add, <- countb_app, <- concat_app, firstn_skipn. reflexivity.
      * rewrite firstn_length. unfold n. lia.
      * intros v Hv. apply H. rewrite <- (firstn_skipn n vs). apply in_or_app. now left.
    + rewrite skipn_length. unfold n. lia.
    + intros v Hv. apply H. rewrite <- (firstn_skipn n vs). apply in_or_app. now right.
Qed.
Lemma vectors_ok n : forall l, (n * 32 <= length l)%nat -> Forall is_byte l ->
  concat (vectors n l) = firstn (n * 32) l /\ (forall v, In v (vectors n l) -> length v = 32%nat /\ Forall is_byte v) /\ length (vectors n l) = n.
Proof.
  induction n as [|n IH]; intros l L H; [simpl; repeat split; try easy|]. cbn [vectors concat length In].
  destruct (IH (skipn 32 l)) as (A & B & C). { rewrite skipn_length. lia. } { rewrite <- (firstn_skipn 32 l) in H. now apply Forall_app in H. }
  rewrite A, C. split; [|split; auto].
  - replace (S n * 32)%nat with (32 + n * 32)%nat by lia. clear. revert l. intros l.
    rewrite <- (firstn_skipn 32 l) at 3. rewrite firstn_app. rewrite firstn_length.
    destruct (Nat.le_gt_cases 32 (length l)).
    + rewrite Nat.min_l by auto. rewrite firstn_all2 with (n := (32 + n * 32)%nat) by (rewrite firstn_length; lia). do 2 f_equal. lia.
    + rewrite (skipn_all2 l) by lia. rewrite !firstn_nil. rewrite firstn_all2 with (n := (32 + n * 32)%nat) by (rewrite firstn_length; lia). reflexivity.
  - intros v [<-|Hv]; auto. split; [rewrite firstn_length; lia|]. rewrite <- (firstn_skipn 32 l) in H. now apply Forall_app in H.
Qed.
Lemma tail_count l : forall r, fold_left (fun acc b => if b =? 0 then acc else acc + 1) l r = r + Z.of_nat (countb set l).
Proof. induction l as [|b l IH]; intros r; [simpl; lia|]. cbn [fold_left]. rewrite IH. unfold countb; fold (countb set l). unfold set at 2. destruct (b =? 0); simpl; lia. Qed.
Lemma SumBooleanMask_ok bytes : Forall is_byte bytes -> SumBooleanMask bytes = Some (Z.of_nat (countb set bytes)).
Proof.
  intros H. unfold SumBooleanMask. set (n := (length bytes / 32)%nat).
  assert (L : (n * 32 <= length bytes)%nat) by (unfold n; rewrite Nat.mul_comm; apply Nat.mul_div_le; lia).
  destruct (vectors_ok n bytes L H) as (A & B & C). rewrite sum_blocks_ok by (auto; rewrite C; auto).
  rewrite tail_count, A, Z.add_0_l, <- Nat2Z.inj_add, <- countb_app, firstn_skipn. reflexivity.
Qed.

(** ** SetItem *)
Lemma seq_from_aux s l : forall k, map (fun j => (s + j)%nat) (seq k l) = seq (s + k) l.
Proof. induction l as [|l IH]; intros k; simpl; auto. f_equal. rewrite IH. f_equal. lia. Qed.
Lemma seq_from s l : map (fun j => (s + j)%nat) (seq 0 l) = seq s l.
Proof. rewrite seq_from_aux. f_equal. lia. Qed.
Section SetItem.
  Context {A : Type}.
  Implicit Types (vals arr : list A) (mask : list Z).

  Lemma assigned_cons b mask vals j : assigned (b :: mask) vals (S j) = assigned mask (if set b then skipn 1 vals else vals) j.
  Proof.
    unfold assigned. simpl. destruct (nth_error mask j) as [c|]; auto. destruct (set c); auto. destruct (set b); simpl; auto.
    destruct vals; auto. simpl. now destruct (countb set (firstn j mask)).
  Qed.
  Lemma copy_ok mask : forall vals row, (countb set mask <= length vals)%nat ->
    CopyItemBooleanMask vals mask row =
      Some (concat (map (fun j => match assigned mask vals j with Some y => [(row + Z.of_nat j, y)] | None => [] end) (seq 0 (length mask)))).
  Proof.
    induction mask as [|b mask IH]; intros vals row H; [reflexivity|]. cbn [CopyItemBooleanMask length seq map concat].
    unfold countb in H; fold (countb set mask) in H.
    assert (E0 : assigned (b :: mask) vals 0 = if set b then nth_error vals 0 else None) by reflexivity.
    assert (T : forall vs, vs = (if set b then skipn 1 vals else vals) ->
      map (fun j => match assigned (b :: mask) vals j with Some y => [(row + Z.of_nat j, y)] | None => [] end) (seq 1 (length mask)) =
      map (fun j => match assigned mask vs j with Some y => [(row + 1 + Z.of_nat j, y)] | None => [] end) (seq 0 (length mask))).
    { intros vs ->. rewrite <- seq_shift, map_map. apply map_ext. intros j. rewrite assigned_cons.
      destruct (assigned mask _ j); auto. do 2 f_equal. lia. }
    rewrite E0. unfold set in H at 1. unfold set at 1. destruct (Z.eqb_spec b 0) as [->|N]; simpl negb in *.
    - rewrite IH by (simpl in H; lia). rewrite (T vals) by reflexivity. reflexivity.
    - destruct vals as [|x vals]; [simpl in H; lia|]. rewrite IH by (simpl in H; lia). rewrite (T vals).
      + simpl. rewrite Z.add_0_r. reflexivity.
      + unfold set. destruct (Z.eqb_spec b 0); [lia|reflexivity].
  Qed.
  Lemma assigned_sub mask vals s l j : (j < l)%nat -> (s + l <= length mask)%nat ->
    assigned (firstn l (skipn s mask)) (skipn (countb set (firstn s mask)) vals) j = assigned mask vals (s + j).
  Proof.
    intros Hj L. unfold assigned. rewrite nth_error_firstn, (proj2 (Nat.ltb_lt j l)) by auto. rewrite nth_error_skipn.
    destruct (nth_error mask (s + j)) as [b|]; auto. destruct (set b); auto. rewrite nth_error_skipn. f_equal.
    rewrite firstn_firstn, Nat.min_l by lia. rewrite <- countb_app. f_equal.
    apply list_ext. intros i. destruct (Nat.lt_ge_cases i s).
    - rewrite nth_error_app1 by (rewrite firstn_length; lia). rewrite !nth_error_firstn. destruct (Nat.ltb_spec i s); [|lia]. destruct (Nat.ltb_spec i (s + j)); [|lia]. auto.
    - rewrite nth_error_app2 by (rewrite firstn_length; lia). rewrite firstn_length, Nat.min_l by lia. rewrite !nth_error_firstn, nth_error_skipn.
      destruct (Nat.ltb_spec (i - s) j), (Nat.ltb_spec i (s + j)); try lia; auto. f_equal. lia.
  Qed.
  Lemma countb_sub s l mask : (countb set (firstn l (skipn s mask)) + countb set (firstn s mask) <= countb set mask)%nat.
  Proof.
    rewrite <- (firstn_skipn s mask) at 3. rewrite countb_app. rewrite <- (firstn_skipn l (skipn s mask)) at 2. rewrite countb_app. lia.
  Qed.
  Definition row_writes (w : nat -> option A) (i : nat) : list (Z * A) := match w i with Some y => [(Z.of_nat i, y)] | None => [] end.
  Lemma copy_part mask vals s l : (s + l <= length mask)%nat -> (countb set mask <= length vals)%nat ->
    CopyItemBooleanMask (skipn (countb set (firstn s mask)) vals) (firstn l (skipn s mask)) (Z.of_nat s) =
      Some (concat (map (row_writes (assigned mask vals)) (seq s l))).
  Proof.
    intros L H. rewrite copy_ok.
    - f_equal. f_equal. rewrite firstn_length, skipn_length, Nat.min_l by lia. 
      replace (seq s l) with (map (fun j => (s + j)%nat) (seq 0 l)).
      2:{ apply seq_from. }
      rewrite map_map. apply map_ext_in. intros j Hj. apply in_seq in Hj. unfold row_writes. rewrite assigned_sub by lia.
      destruct (assigned mask vals (s + j)); auto. do 2 f_equal. lia.
    - rewrite skipn_length. pose proof (countb_sub s l mask). lia.
  Qed.
  Lemma scalar_ok (x : A) mask : forall row, CopyItemBooleanMaskScalar x mask row =
    concat (map (fun j => match assigned_scalar mask x j with Some y => [(row + Z.of_nat j, y)] | None => [] end) (seq 0 (length mask))).
  Proof.
    induction mask as [|b mask IH]; intros row; [reflexivity|]. cbn [CopyItemBooleanMaskScalar length seq map concat]. f_equal.
    - unfold assigned_scalar. simpl. unfold set. destruct (b =? 0); simpl; auto. do 2 f_equal. lia.
    - rewrite IH, <- seq_shift, map_map. f_equal. apply map_ext. intros j. unfold assigned_scalar. simpl. destruct (nth_error mask j); auto.
      destruct (set z); auto. do 2 f_equal. lia.
  Qed.
  Lemma scalar_part (x : A) mask s l : (s + l <= length mask)%nat ->
    CopyItemBooleanMaskScalar x (firstn l (skipn s mask)) (Z.of_nat s) = concat (map (row_writes (assigned_scalar mask x)) (seq s l)).
  Proof.
    intros L. rewrite scalar_ok. f_equal. rewrite firstn_length, skipn_length, Nat.min_l by lia. 
    replace (seq s l) with (map (fun j => (s + j)%nat) (seq 0 l)).
    2:{ apply seq_from. }
    rewrite map_map. apply map_ext_in. intros j Hj. apply in_seq in Hj. unfold row_writes, assigned_scalar.
    rewrite nth_error_firstn, (proj2 (Nat.ltb_lt j l)) by lia. rewrite nth_error_skipn. 
    destruct (nth_error mask (s + j)); auto. destruct (set z); auto. do 2 f_equal. lia.
  Qed.

  (** *** The parts *)
  Definition nparts (n : nat) : nat := ((n + (CHUNK - 1)) / CHUNK)%nat.
  Lemma chunk_pos : (0 < CHUNK)%nat. Proof. unfold CHUNK. lia. Qed.
  Lemma chunk_z : Z.of_nat CHUNK = SETITEM_PARTITION_SIZE. Proof. reflexivity. Qed.
  Local Opaque CHUNK SETITEM_PARTITION_SIZE Nat.mul.
  Lemma sections_ok n : (Z.of_nat n + (SETITEM_PARTITION_SIZE - 1)) / SETITEM_PARTITION_SIZE = Z.of_nat (nparts n).
  Proof. unfold nparts. rewrite Nat2Z.inj_div, Nat2Z.inj_add, Nat2Z.inj_sub by (pose proof chunk_pos; lia). rewrite chunk_z. reflexivity. Qed.
  Lemma last_count_ok n t : (t < nparts n)%nat -> last_count (Z.of_nat n) (Z.of_nat (nparts n)) (Z.of_nat t) = Z.of_nat (Nat.min CHUNK (n - t * CHUNK)).
  Proof.
    intros Ht. pose proof chunk_pos as HC.
    assert (B : (nparts n * CHUNK < n + CHUNK)%nat /\ (n <= nparts n * CHUNK)%nat).
    { unfold nparts. pose proof (Nat.div_mod (n + (CHUNK - 1)) CHUNK) as D. pose proof (Nat.mod_upper_bound (n + (CHUNK - 1)) CHUNK). 
      specialize (D ltac:(lia)). rewrite (Nat.mul_comm CHUNK) in D. lia. }
    unfold last_count. destruct (Z.eqb_spec (Z.of_nat t) (Z.of_nat (nparts n) - 1)) as [E|E].
    - assert (nparts n = S t) by lia. rewrite H in B.
      replace (SETITEM_PARTITION_SIZE - 1) with (Z.ones 14) by reflexivity. rewrite Z.land_ones by lia. change (2 ^ 14) with SETITEM_PARTITION_SIZE.
      assert (Hn : Z.of_nat n = Z.of_nat t * SETITEM_PARTITION_SIZE + Z.of_nat (n - t * CHUNK)).
      { rewrite <- chunk_z, <- Nat2Z.inj_mul, <- Nat2Z.inj_add. f_equal. nia. }
      destruct (Nat.eq_dec (n - t * CHUNK) CHUNK) as [F|F].
      + rewrite Hn, F, chunk_z. replace (Z.of_nat t * SETITEM_PARTITION_SIZE + SETITEM_PARTITION_SIZE) with ((Z.of_nat t + 1) * SETITEM_PARTITION_SIZE) by lia.
        rewrite Z.mod_mul by discriminate. rewrite Z.eqb_refl, Nat.min_id, chunk_z. reflexivity.
      + assert (0 < n - t * CHUNK < CHUNK)%nat by nia.
        rewrite Hn, Z.add_comm, Z.mod_add by discriminate. rewrite Z.mod_small by (rewrite <- chunk_z; lia).
        cbv zeta. destruct (Z.eqb_spec (Z.of_nat (n - t * CHUNK)) 0); [lia|]. rewrite Nat.min_r by lia. reflexivity.
    - rewrite <- chunk_z. f_equal. assert (S t < nparts n)%nat by lia. rewrite Nat.min_l; auto. nia.
  Qed.
  Lemma parts_map {B} (f : Z -> B) (g : nat * nat -> B) n :
    (forall t, (t < nparts n)%nat -> f (Z.of_nat t) = g ((t * CHUNK)%nat, Nat.min CHUNK (n - t * CHUNK))) ->
    map f (map Z.of_nat (seq 0 (nparts n))) = map g (chunks CHUNK n).
  Proof.
    intros H. unfold chunks. fold (nparts n). rewrite !map_map. apply map_ext_in. intros t Ht. apply in_seq in Ht. apply H. lia.
  Qed.
  Lemma sparse_chunks (w : nat -> option A) n : concat (map (fun c : nat * nat => concat (map (row_writes w) (seq (fst c) (snd c)))) (chunks CHUNK n)) = sparse w n.
  Proof. unfold sparse. fold (row_writes w). rewrite <- (chunks_seq CHUNK n chunk_pos), concat_map_concat, map_map. reflexivity. Qed.

  Lemma sub_mask_ok mask t : (t < nparts (length mask))%nat ->
    sub_mask mask (SETITEM_PARTITION_SIZE * Z.of_nat t) (last_count (Z.of_nat (length mask)) (Z.of_nat (nparts (length mask))) (Z.of_nat t)) =
    firstn (Nat.min CHUNK (length mask - t * CHUNK)) (skipn (t * CHUNK) mask).
  Proof.
    intros H. unfold sub_mask. rewrite last_count_ok, Nat2Z.id by auto. do 2 f_equal. rewrite <- chunk_z, <- Nat2Z.inj_mul, Nat2Z.id. lia.
  Qed.
  Lemma part_bound n t : (t < nparts n)%nat -> (t * CHUNK + Nat.min CHUNK (n - t * CHUNK) <= n)%nat.
  Proof.
    intros Ht. pose proof chunk_pos as HC. unfold nparts in Ht.
    pose proof (Nat.mul_div_le (n + (CHUNK - 1)) CHUNK ltac:(lia)). nia.
  Qed.
  Lemma counts_sum mask : zsum (map (fun c : nat * nat => Z.of_nat (countb set (firstn (snd c) (skipn (fst c) mask)))) (chunks CHUNK (length mask))) = Z.of_nat (countb set mask).
  Proof.
    assert (G : forall l, zsum (map (fun c => Z.of_nat (countb set (firstn (snd c) (skipn (fst c) mask)))) l) =
      Z.of_nat (countb set (concat (map (fun c : nat * nat => firstn (snd c) (skipn (fst c) mask)) l)))).
    { induction l as [|c l IH]; simpl; auto. rewrite IH, countb_app. lia. }
    rewrite G. do 2 f_equal. 
    transitivity (map (fun i => nth i mask 0) (seq 0 (length mask))); [|apply map_nth_seq].
    rewrite <- (chunks_seq CHUNK (length mask) chunk_pos).
    rewrite concat_map, map_map. f_equal. apply map_ext_in. intros [s l] Hc. apply chunks_in in Hc; [|apply chunk_pos]. cbn [fst snd].
    apply list_ext. intros i. rewrite nth_error_firstn, nth_error_map, nth_error_seq, nth_error_skipn.
    destruct (Nat.ltb_spec i l); auto. simpl. symmetry. rewrite (nth_error_nth' mask 0) by lia. reflexivity.
  Qed.
  Lemma counts_prefix mask t : (t < nparts (length mask))%nat ->
    zsum (firstn t (map (fun c : nat * nat => Z.of_nat (countb set (firstn (snd c) (skipn (fst c) mask)))) (chunks CHUNK (length mask)))) = Z.of_nat (countb set (firstn (t * CHUNK) mask)).
  Proof.
    intros H. induction t as [|t IH]; [reflexivity|].
    assert (E : nth_error (map (fun c : nat * nat => Z.of_nat (countb set (firstn (snd c) (skipn (fst c) mask)))) (chunks CHUNK (length mask))) t =
      Some (Z.of_nat (countb set (firstn (Nat.min CHUNK (length mask - t * CHUNK)) (skipn (t * CHUNK) mask))))).
    { unfold chunks. fold (nparts (length mask)). rewrite map_map, nth_error_map, nth_error_seq, (proj2 (Nat.ltb_lt t _)) by lia. reflexivity. }
    rewrite (firstn_S_snoc _ _ _ E), zsum_app, IH by lia. cbn [zsum fold_right]. rewrite Z.add_0_r, <- Nat2Z.inj_add, <- countb_app. do 2 f_equal.
    assert (B : (S t * CHUNK <= length mask)%nat). { pose proof (part_bound (length mask) (S t) H). lia. }
    rewrite Nat.min_l by lia. rewrite Nat.mul_succ_l.
    rewrite <- (firstn_skipn (t * CHUNK) mask) at 3. rewrite firstn_app, firstn_firstn, firstn_length, !Nat.min_r by lia.
    do 2 f_equal. lia.
  Qed.

  Lemma SetItem_ok ord arr mask vals : fair ord -> Forall is_byte mask -> length mask = length arr -> length vals = countb set mask -> (0 < countb set mask)%nat ->
    SetItem ord arr mask vals = Some (Some (replaced (assigned mask vals) arr)).
  Proof.
    intros Ho HB L LV P. unfold SetItem. rewrite L, Nat.eqb_refl.
    assert (Z0 : forall i, (length arr <= i)%nat -> assigned mask vals i = None).
    { intros i Hi. unfold assigned. rewrite (proj2 (nth_error_None mask i)); auto. lia. }
    destruct (Z.leb_spec (Z.of_nat (length arr)) SETITEM_PARTITION_SIZE).
    - unfold SetItemBooleanMask. rewrite SumBooleanMask_ok by auto. rewrite LV, Z.eqb_refl. destruct (Z.ltb_spec 0 (Z.of_nat (countb set mask))); [|lia]. cbn [andb].
      rewrite copy_ok by lia. rewrite (writes_sparse (assigned mask vals) (length arr)); auto. unfold sparse. rewrite L.
      erewrite map_ext; [reflexivity|]. intros j. simpl. reflexivity.
    - unfold SetItemBooleanMaskLarge. rewrite sections_ok, Nat2Z.id.
      set (n := length mask) in *. 
      set (cnt := fun c : nat * nat => Z.of_nat (countb set (firstn (snd c) (skipn (fst c) mask)))).
      assert (Hcnt : forall t, (t < nparts n)%nat -> SumBooleanMask (sub_mask mask (SETITEM_PARTITION_SIZE * Z.of_nat t) (last_count (Z.of_nat n) (Z.of_nat (nparts n)) (Z.of_nat t))) =
        Some (cnt ((t * CHUNK)%nat, Nat.min CHUNK (n - t * CHUNK)))).
      { intros t Ht. unfold n in *. rewrite sub_mask_ok by auto. rewrite SumBooleanMask_ok; auto.
        rewrite <- (firstn_skipn (t * CHUNK) mask) in HB. apply Forall_app in HB as [_ HB].
        rewrite <- (firstn_skipn (Nat.min CHUNK (length mask - t * CHUNK)) (skipn (t * CHUNK) mask)) in HB. now apply Forall_app in HB. }
      rewrite (all_some_map _ (fun t => (t, cnt ((Z.to_nat t * CHUNK)%nat, Nat.min CHUNK (n - Z.to_nat t * CHUNK))))).
      2:{ intros t Ht. apply in_map_iff in Ht as (k & <- & Hk). apply in_seq in Hk. rewrite Hcnt, Nat2Z.id by lia. reflexivity. }
      rewrite (writes_enum _ (map cnt (chunks CHUNK n))).
      2:{ eapply perm_trans; [apply Ho|]. rewrite map_map. unfold chunks. fold (nparts n). rewrite map_map, enum_map_seq by reflexivity.
          erewrite map_ext; [reflexivity|]. intros t. simpl. now rewrite Nat2Z.id. }
      2:{ rewrite repeat_length, map_length, chunks_length. reflexivity. }
      unfold cnt at 1 2. unfold n at 1 2. rewrite counts_sum. rewrite LV, Z.eqb_refl. destruct (Z.ltb_spec 0 (Z.of_nat (countb set mask))); [|lia]. cbn [andb].
      rewrite (all_some_map _ (fun t => concat (map (row_writes (assigned mask vals)) (seq (Z.to_nat t * CHUNK) (Nat.min CHUNK (n - Z.to_nat t * CHUNK)))))).
      2:{ intros t Ht. apply in_map_iff in Ht as (k & <- & Hk). apply in_seq in Hk. rewrite Nat2Z.id, zrd_some, Nat2Z.id by lia.
          rewrite excl_nth by (rewrite map_length, chunks_length; fold (nparts n); lia). rewrite Z.add_0_l. unfold n at 1. unfold cnt. rewrite counts_prefix by (fold n; lia). rewrite Nat2Z.id.
          unfold n at 1 2 3. rewrite sub_mask_ok by (fold n; lia). 
          replace (SETITEM_PARTITION_SIZE * Z.of_nat k) with (Z.of_nat (k * CHUNK)) by (rewrite Nat2Z.inj_mul, chunk_z; lia).
          rewrite copy_part by (first [apply part_bound; fold n; lia | lia]). reflexivity. }
      rewrite (writes_sparse (assigned mask vals) n); auto; [|unfold n in *; lia|unfold n in *; rewrite L; auto].
      eapply perm_trans; [apply Ho|]. rewrite <- sparse_chunks. unfold chunks. fold (nparts n). rewrite !map_map.
      erewrite map_ext; [reflexivity|]. intros t. simpl. now rewrite Nat2Z.id.
  Qed.
  Lemma SetItem_scalar ord arr mask (x : A) : fair ord -> Forall is_byte mask -> length mask = length arr -> SETITEM_PARTITION_SIZE < Z.of_nat (length arr) -> (0 < countb set mask)%nat ->
    SetItem ord arr mask [x] = Some (Some (replaced (assigned_scalar mask x) arr)).
  Proof.
    intros Ho HB L Big P. destruct (Nat.eq_dec (countb set mask) 1) as [O|O].
    { rewrite SetItem_ok by (auto; simpl; lia). do 2 f_equal. unfold replaced. apply map_ext. intros [i y]. simpl.
      replace (assigned mask [x] i) with (assigned_scalar mask x i); auto. unfold assigned, assigned_scalar.
      destruct (nth_error mask i) as [b|] eqn:E; auto. destruct (set b) eqn:S; auto.
      assert (countb set (firstn i mask) = 0%nat); [|rewrite H; reflexivity].
      rewrite <- (firstn_skipn i mask) in O. rewrite countb_app in O.
      assert (0 < countb set (skipn i mask))%nat; [|lia].
      destruct (skipn i mask) as [|b' tl] eqn:Q. { apply (f_equal (@length Z)) in Q. rewrite skipn_length in Q. simpl in Q. apply nth_error_Some_lt in E. lia. }
      assert (nth_error (skipn i mask) 0 = Some b') by now rewrite Q. rewrite nth_error_skipn, Nat.add_0_r, E in H. injection H as <-.
      simpl. rewrite S. lia. }
    unfold SetItem. rewrite L, Nat.eqb_refl. destruct (Z.leb_spec (Z.of_nat (length arr)) SETITEM_PARTITION_SIZE); [lia|].
    unfold SetItemBooleanMaskLarge. rewrite sections_ok, Nat2Z.id.
    set (n := length mask) in *. 
    set (cnt := fun c : nat * nat => Z.of_nat (countb set (firstn (snd c) (skipn (fst c) mask)))).
    assert (Hcnt : forall t, (t < nparts n)%nat -> SumBooleanMask (sub_mask mask (SETITEM_PARTITION_SIZE * Z.of_nat t) (last_count (Z.of_nat n) (Z.of_nat (nparts n)) (Z.of_nat t))) =
      Some (cnt ((t * CHUNK)%nat, Nat.min CHUNK (n - t * CHUNK)))).
    { intros t Ht. unfold n in *. rewrite sub_mask_ok by auto. rewrite SumBooleanMask_ok; auto.
      rewrite <- (firstn_skipn (t * CHUNK) mask) in HB. apply Forall_app in HB as [_ HB].
      rewrite <- (firstn_skipn (Nat.min CHUNK (length mask - t * CHUNK)) (skipn (t * CHUNK) mask)) in HB. now apply Forall_app in HB. }
    rewrite (all_some_map _ (fun t => (t, cnt ((Z.to_nat t * CHUNK)%nat, Nat.min CHUNK (n - Z.to_nat t * CHUNK))))).
    2:{ intros t Ht. apply in_map_iff in Ht as (k & <- & Hk). apply in_seq in Hk. rewrite Hcnt, Nat2Z.id by lia. reflexivity. }
    rewrite (writes_enum _ (map cnt (chunks CHUNK n))).
    2:{ eapply perm_trans; [apply Ho|]. rewrite map_map. unfold chunks. fold (nparts n). rewrite map_map, enum_map_seq by reflexivity.
        erewrite map_ext; [reflexivity|]. intros t. simpl. now rewrite Nat2Z.id. }
    2:{ rewrite repeat_length, map_length, chunks_length. reflexivity. }
    unfold cnt. replace (chunks CHUNK n) with (chunks CHUNK (length mask)) by reflexivity. rewrite !counts_sum.  destruct (Z.ltb_spec 0 (Z.of_nat (countb set mask))); [|lia]. cbn [andb].
    change (Z.of_nat (length [x])) with 1. destruct (Z.eqb_spec (Z.of_nat (countb set mask)) 1); [lia|]. rewrite Z.eqb_refl. cbn [andb].
    rewrite (writes_sparse (assigned_scalar mask x) n); auto; [|unfold n in *; lia|].
    - eapply perm_trans; [apply Ho|]. rewrite <- sparse_chunks. 
      erewrite (parts_map _ (fun c => concat (map (row_writes (assigned_scalar mask x)) (seq (fst c) (snd c))))); [reflexivity|].
      intros t Ht. unfold n at 1 2. rewrite sub_mask_ok by (fold n; lia). 
      replace (SETITEM_PARTITION_SIZE * Z.of_nat t) with (Z.of_nat (t * CHUNK)) by (rewrite Nat2Z.inj_mul, chunk_z; lia).
      rewrite scalar_part by (apply part_bound; fold n; lia). reflexivity.
    - intros i Hi. unfold assigned_scalar. rewrite (proj2 (nth_error_None mask i)); auto.
  Qed.
  (** otherwise nothing is changed: numpy is asked *)
  Lemma SetItem_small_punt ord arr mask vals : Forall is_byte mask -> Z.of_nat (length arr) <= SETITEM_PARTITION_SIZE -> length vals <> countb set mask ->
    SetItem ord arr mask vals = Some None.
  Proof.
    intros HB L N. unfold SetItem. destruct (length arr =? length mask)%nat; auto. rewrite (proj2 (Z.leb_le _ _)) by auto.
    unfold SetItemBooleanMask. rewrite SumBooleanMask_ok by auto. destruct (Z.eqb_spec (Z.of_nat (countb set mask)) (Z.of_nat (length vals))); [lia|]. now rewrite andb_false_r.
  Qed.
End SetItem.
