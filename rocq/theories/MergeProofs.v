From Verif Require Import Base MemLemmas MergeModel MergeSpec.
Local Open Scope Z_scope.

(** ** Counting *)

Definition b01 (mb : Z -> Z) (p : Z) : Z := if mb p =? 0 then 0 else 1.
Fixpoint bsum (mb : Z -> Z) (n : nat) (s p : Z) : Z :=
  match n with O => 0 | S n' => b01 mb p + bsum mb n' s (p + s) end.

Lemma bsum_app mb n m s : forall p, bsum mb (n + m) s p = bsum mb n s p + bsum mb m s (p + Z.of_nat n * s).
Proof.
  induction n as [|n IH]; intros p; cbn [bsum Nat.add].
  - rewrite Z.add_0_l. f_equal. lia.
  - rewrite IH. replace (p + Z.of_nat (S n) * s) with (p + s + Z.of_nat n * s) by lia. lia.
Qed.

Lemma bsum_bound mb n s : forall p, 0 <= bsum mb n s p <= Z.of_nat n.
Proof.
  induction n as [|n IH]; intros p; cbn [bsum]; [lia|].
  assert (H := IH (p + s)). unfold b01. destruct (mb p =? 0); lia.
Qed.

Lemma bsum_count mb n s : forall i0,
  bsum mb n s (Z.of_nat i0 * s) = Z.of_nat (countb (mask_true mb s) (seq i0 n)).
Proof.
  induction n as [|n IH]; intros i0; cbn [bsum seq countb]; auto.
  replace (Z.of_nat i0 * s + s) with (Z.of_nat (S i0) * s) by lia. rewrite IH.
  change (mask_true mb s i0) with (negb (mb (Z.of_nat i0 * s) =? 0)).
  unfold b01. destruct (mb (Z.of_nat i0 * s) =? 0); cbn [negb]; lia.
Qed.

Lemma byte_loop_bsum mb n s : forall p r, byte_loop mb n s p r = r + bsum mb n s p.
Proof.
  induction n as [|n IH]; intros p r; cbn [byte_loop bsum]; [lia|].
  rewrite IH. unfold b01. destruct (mb p =? 0); lia.
Qed.

Lemma lane_count_bsum mb n : bytes mb -> forall p acc, 0 <= acc -> acc + Z.of_nat n <= 255 ->
  lane_count mb n p acc = acc + bsum mb n 32 p.
Proof.
  intros Hb. induction n as [|n IH]; intros p acc Ha Hn; cbn [lane_count bsum]; [lia|].
  assert (E : Z.min 1 (mb p) = b01 mb p).
  { unfold b01. destruct (Z.eqb_spec (mb p) 0) as [->|Hne]; [reflexivity|]. specialize (Hb p). lia. }
  rewrite E.
  assert (0 <= b01 mb p <= 1) by (unfold b01; destruct (mb p =? 0); lia).
  rewrite Z.mod_small by lia. rewrite IH by lia. lia.
Qed.

Lemma lanes_one mb k : forall p, zsum (map (fun lane => b01 mb (p + Z.of_nat lane)) (seq 0 k)) = bsum mb k 1 p.
Proof.
  assert (G : forall i0 p, zsum (map (fun lane => b01 mb (p + Z.of_nat lane)) (seq i0 k)) = bsum mb k 1 (p + Z.of_nat i0)).
  { induction k as [|k IH]; intros i0 p; cbn [seq map bsum]; auto.
    change (zsum (?a :: ?l)) with (a + zsum l). rewrite IH. f_equal. f_equal. lia. }
  intros p. rewrite G. f_equal. lia.
Qed.

Lemma zsum_map_add {B} (f g : B -> Z) l : zsum (map (fun x => f x + g x) l) = zsum (map f l) + zsum (map g l).
Proof. induction l as [|x l IH]; simpl; auto. change (zsum (?a :: ?l)) with (a + zsum l). unfold zsum in *; simpl; lia. Qed.

Lemma lanes_all mb n : forall p,
  zsum (map (fun lane => bsum mb n 32 (p + Z.of_nat lane)) (seq 0 32)) = bsum mb (32 * n) 1 p.
Proof.
  induction n as [|n IH]; intros p.
  - rewrite Nat.mul_0_r. reflexivity.
  - cbn [bsum]. rewrite zsum_map_add, lanes_one.
    replace (32 * S n)%nat with (32 + 32 * n)%nat by lia. rewrite bsum_app. f_equal.
    rewrite <- IH. f_equal. apply map_ext. intros a. f_equal. lia.
Qed.

Lemma vec_sum_bsum mb n p : bytes mb -> (n <= 255)%nat -> vec_sum mb n p = bsum mb (32 * n) 1 p.
Proof.
  intros Hb Hn. unfold vec_sum. rewrite <- lanes_all. f_equal. apply map_ext. intros a.
  rewrite lane_count_bsum; auto; lia.
Qed.

Lemma vec_loop_bsum mb fuel : bytes mb -> forall left p r, 0 <= left -> left <= Z.of_nat fuel ->
  vec_loop mb fuel left p r = r + bsum mb (32 * Z.to_nat left) 1 p.
Proof.
  intros Hb. induction fuel as [|fuel IH]; intros left p r H0 Hf; cbn [vec_loop].
  - replace left with 0 by lia. simpl. lia.
  - destruct (Z.leb_spec left 0) as [H|H].
    + replace left with 0 by lia. simpl. lia.
    + set (inner := Z.min left 255). assert (1 <= inner <= 255 /\ inner <= left) by lia.
      rewrite IH by lia. rewrite vec_sum_bsum by (auto; lia).
      replace (32 * Z.to_nat left)%nat with (32 * Z.to_nat inner + 32 * Z.to_nat (left - inner))%nat by lia.
      rewrite bsum_app.
      replace (p + Z.of_nat (32 * Z.to_nat inner) * 1) with (p + 32 * inner) by lia. lia.
Qed.

Lemma SumBooleanMask_bsum mb p len s : bytes mb -> 0 <= len -> SumBooleanMask mb p len s = bsum mb (Z.to_nat len) s p.
Proof.
  intros Hb Hl. unfold SumBooleanMask. rewrite (proj2 (Z.ltb_ge len 0)) by lia.
  destruct (Z.eqb_spec s 1) as [->|Hs].
  - assert (E := Z.div_mod len 32 ltac:(lia)). assert (M := Z.mod_pos_bound len 32 ltac:(lia)).
    set (v := len / 32) in *. assert (0 <= v) by lia.
    rewrite byte_loop_bsum, vec_loop_bsum by (auto; lia).
    replace (Z.to_nat len) with (32 * Z.to_nat v + Z.to_nat (len - v * 32))%nat by lia.
    rewrite bsum_app. replace (p + Z.of_nat (32 * Z.to_nat v) * 1) with (p + v * 32) by lia. lia.
  - rewrite byte_loop_bsum. lia.
Qed.

Lemma SumBooleanMask_count mb s i0 n : bytes mb ->
  SumBooleanMask mb (Z.of_nat i0 * s) (Z.of_nat n) s = Z.of_nat (countb (mask_true mb s) (seq i0 n)).
Proof. intros Hb. rewrite SumBooleanMask_bsum, Nat2Z.id by (auto; lia). apply bsum_count. Qed.

(** The count array after the first pass. *)
Definition piece_counts (P : nat -> bool) (calls : list (nat * nat)) : list Z :=
  map (fun p => Z.of_nat (countb P (seq (fst p) (snd p)))) calls.

Lemma count_entries_pos c len : (0 < c)%nat -> (0 < len)%nat -> count_entries c len = ((len + (c - 1)) / c)%nat.
Proof. intros Hc Hl. unfold count_entries. f_equal. lia. Qed.

Lemma count_entries_ge c len : (0 < c)%nat -> (1 <= count_entries c len)%nat.
Proof.
  intros Hc. unfold count_entries. apply Nat.div_le_lower_bound; lia.
Qed.

Lemma count_writes_threaded mb s c len : bytes mb -> (0 < c)%nat ->
  concat (map (count_callback mb s c) (chunks c len)) = enum 1 0 (piece_counts (mask_true mb s) (chunks c len)).
Proof.
  intros Hb Hc. unfold piece_counts, chunks. rewrite !map_map. cbn [fst snd].
  set (n := ((len + (c - 1)) / c)%nat).
  assert (G : forall k b0, concat (map (fun b => count_callback mb s c ((b * c)%nat, Nat.min c (len - b * c))) (seq b0 k)) =
     enum 1 (Z.of_nat b0) (map (fun b => Z.of_nat (countb (mask_true mb s) (seq (b * c) (Nat.min c (len - b * c))))) (seq b0 k))).
  { induction k as [|k IH]; intros b0; cbn [seq map concat enum]; auto.
    unfold count_callback at 1. cbn [fst snd]. rewrite Nat.div_mul by lia. rewrite SumBooleanMask_count by auto.
    rewrite IH. cbn [app]. f_equal. f_equal. lia. }
  apply (G n 0%nat).
Qed.

Lemma BooleanCount_threaded ord c mb s len junk : fair ord -> bytes mb -> (0 < c)%nat -> (0 < len)%nat ->
  BooleanCount ord true c mb s len junk =
    Some (piece_counts (mask_true mb s) (chunks c len), length (chunks c len)).
Proof.
  intros Hf Hb Hc Hl. unfold BooleanCount, chunk_calls.
  rewrite (writes_enum _ (piece_counts (mask_true mb s) (chunks c len))).
  - rewrite count_entries_pos, chunks_length by auto. reflexivity.
  - rewrite (Hf _ _). rewrite count_writes_threaded; auto.
  - unfold piece_counts. rewrite repeat_length, map_length, chunks_length. now apply count_entries_pos.
Qed.

Lemma ord_one {B} (ord : sched) (x : B) : fair ord -> ord _ [x] = [x].
Proof. intros Hf. apply Permutation_length_1_inv. apply Permutation_sym, Hf. Qed.

Lemma BooleanCount_single ord c mb s len junk : fair ord -> bytes mb -> (0 < c)%nat ->
  exists rest, BooleanCount ord false c mb s len junk =
    Some (Z.of_nat (countb (mask_true mb s) (seq 0 len)) :: rest, 1%nat) /\
    length rest = (count_entries c len - 1)%nat.
Proof.
  intros Hf Hb Hc. unfold BooleanCount, chunk_calls. cbn [map concat app].
  unfold count_callback. cbn [fst snd app]. rewrite ord_one by auto.
  assert (H := count_entries_ge c len Hc).
  destruct (count_entries c len) as [|e] eqn:E; [lia|]. cbn [repeat].
  rewrite Nat.div_0_l by lia. cbn [writes].
  rewrite zwr_some by (simpl; lia). cbn [Z.to_nat upd].
  exists (repeat junk e). split; [|rewrite repeat_length; lia].
  rewrite SumBooleanMask_count by auto. reflexivity.
Qed.

Lemma countb_seq_pieces P c len : (0 < c)%nat ->
  zsum (piece_counts P (chunks c len)) = Z.of_nat (countb P (seq 0 len)).
Proof.
  intros Hc. rewrite <- (chunks_seq c len Hc). unfold piece_counts.
  induction (chunks c len) as [|p l IH]; simpl; auto.
  rewrite countb_app, Nat2Z.inj_add, <- IH. reflexivity.
Qed.

Lemma boolean_sum ord thr c mb s len junk : fair ord -> bytes mb -> (0 < c)%nat -> (thr = true -> (0 < len)%nat) ->
  BooleanSum ord thr c mb s len junk = Some (Z.of_nat (length (true_positions mb s len))).
Proof.
  intros Hf Hb Hc Ht. unfold BooleanSum, true_positions. rewrite <- countb_length_filter. destruct thr.
  - rewrite BooleanCount_threaded by auto. rewrite firstn_all2.
    + now rewrite countb_seq_pieces.
    + unfold piece_counts. now rewrite map_length.
  - destruct (BooleanCount_single ord c mb s len junk Hf Hb Hc) as (rest & -> & _).
    cbn. f_equal. unfold zsum; simpl. lia.
Qed.

(** ** BooleanIndex *)

Section BI.
  Context {A : Type} (mb : Z -> Z) (vb : Z -> A).

  Lemma scan_spec n : forall sb sv os i0 po,
    scan mb vb n sb sv os (Z.of_nat i0 * sb) (Z.of_nat i0 * sv) po =
    (enum os po (map (fun i => vb (Z.of_nat i * sv)) (filter (mask_true mb sb) (seq i0 n))),
     (Z.of_nat (i0 + n) * sb, Z.of_nat (i0 + n) * sv, po + os * Z.of_nat (countb (mask_true mb sb) (seq i0 n)))).
  Proof.
    induction n as [|n IH]; intros sb sv os i0 po.
    - simpl. rewrite Nat.add_0_r. repeat f_equal. lia.
    - cbn [scan seq filter countb].
      replace (Z.of_nat i0 * sb + sb) with (Z.of_nat (S i0) * sb) by lia.
      replace (Z.of_nat i0 * sv + sv) with (Z.of_nat (S i0) * sv) by lia.
      rewrite !IH. change (mask_true mb sb i0) with (negb (mb (Z.of_nat i0 * sb) =? 0)).
      replace (S i0 + n)%nat with (i0 + S n)%nat by lia.
      destruct (mb (Z.of_nat i0 * sb) =? 0); cbn [negb map enum].
      + reflexivity.
      + f_equal. f_equal. lia.
  Qed.

  Lemma scan_app n m : forall sb sv os pb pv po,
    scan mb vb (n + m) sb sv os pb pv po =
    let '(w1, (pb1, pv1, po1)) := scan mb vb n sb sv os pb pv po in
    let '(w2, e) := scan mb vb m sb sv os pb1 pv1 po1 in (w1 ++ w2, e).
  Proof.
    induction n as [|n IH]; intros sb sv os pb pv po; cbn [scan Nat.add].
    - destruct (scan mb vb m sb sv os pb pv po); reflexivity.
    - destruct (mb pb =? 0).
      + apply IH.
      + rewrite IH. destruct (scan mb vb n sb sv os (pb + sb) (pv + sv) (po + os)) as [w1 [[pb1 pv1] po1]].
        destruct (scan mb vb m sb sv os pb1 pv1 po1); reflexivity.
  Qed.

  (** words *)
  Fixpoint load_bytes (n : nat) (p : Z) : Z := match n with O => 0 | S n' => mb p + 256 * load_bytes n' (p + 1) end.

  Lemma load64_bytes p : load64 mb p = load_bytes 8 p.
  Proof.
    unfold load64. assert (G : forall k i0, fold_right (fun j acc => mb (p + Z.of_nat j) + 256 * acc) 0 (seq i0 k) = load_bytes k (p + Z.of_nat i0)).
    { induction k as [|k IH]; intros i0; cbn [seq fold_right load_bytes]; auto. rewrite IH. replace (p + Z.of_nat (S i0)) with (p + Z.of_nat i0 + 1) by lia. reflexivity. }
    rewrite G. f_equal. lia.
  Qed.

  Lemma load_bytes_nonneg n : bytes mb -> forall p, 0 <= load_bytes n p.
  Proof. intros Hb. induction n as [|n IH]; intros p; cbn [load_bytes]; [lia|]. assert (H := IH (p + 1)). specialize (Hb p). lia. Qed.

  Lemma low_byte a r : 0 <= a < 256 -> 0 <= r -> Z.land (a + 256 * r) 255 = a /\ Z.shiftr (a + 256 * r) 8 = r.
  Proof.
    intros Ha Hr. split.
    - change 255 with (Z.ones 8). rewrite Z.land_ones by lia. change (2 ^ 8) with 256. rewrite Z.mul_comm, Z_mod_plus_full.
      apply Z.mod_small; lia.
    - rewrite Z.shiftr_div_pow2 by lia. change (2 ^ 8) with 256. rewrite Z.mul_comm, Z.div_add by lia.
      rewrite Z.div_small; lia.
  Qed.

  Lemma word_bytes_scan n : bytes mb -> forall p sv os pv po,
    word_bytes vb n (load_bytes n p) sv os pv po =
    let '(w, (_, pv', po')) := scan mb vb n 1 sv os p pv po in (w, (pv', po')).
  Proof.
    intros Hb. induction n as [|n IH]; intros p sv os pv po; cbn [word_bytes scan load_bytes]; auto.
    destruct (low_byte (mb p) (load_bytes n (p + 1)) (Hb p) (load_bytes_nonneg n Hb _)) as [-> ->].
    rewrite !IH. destruct (mb p =? 0); auto.
    destruct (scan mb vb n 1 sv os (p + 1) (pv + sv) (po + os)) as [w [[a b] e]]; reflexivity.
  Qed.

  Lemma scan_zero n : bytes mb -> forall p sv os pv po, load_bytes n p = 0 ->
    scan mb vb n 1 sv os p pv po = ([], (p + Z.of_nat n, pv + Z.of_nat n * sv, po)).
  Proof.
    intros Hb. induction n as [|n IH]; intros p sv os pv po H; cbn [scan load_bytes] in *.
    - repeat f_equal; lia.
    - assert (H1 := load_bytes_nonneg n Hb (p + 1)). assert (H2 := Hb p).
      assert (E1 : mb p = 0) by lia. assert (E2 : load_bytes n (p + 1) = 0) by lia.
      rewrite E1, Z.eqb_refl. rewrite IH by auto. do 3 f_equal; lia.
  Qed.

  Lemma scan_pos n : forall sb sv os pb pv po, fst (fst (snd (scan mb vb n sb sv os pb pv po))) = pb + Z.of_nat n * sb.
  Proof.
    induction n as [|n IH]; intros sb sv os pb pv po; cbn [scan].
    - simpl. lia.
    - destruct (mb pb =? 0).
      + rewrite IH. lia.
      + specialize (IH sb sv os (pb + sb) (pv + sv) (po + os)).
        destruct (scan mb vb n sb sv os (pb + sb) (pv + sv) (po + os)). cbn [fst snd] in *. rewrite IH. lia.
  Qed.

  Lemma word_loop_scan n : bytes mb -> forall sv os pb pv po,
    word_loop mb vb n sv os pb pv po = scan mb vb (n * 8) 1 sv os pb pv po.
  Proof.
    intros Hb. induction n as [|n IH]; intros sv os pb pv po; [reflexivity|].
    cbn [Nat.mul]. rewrite scan_app. cbn [word_loop]. rewrite load64_bytes.
    destruct (Z.eqb_spec (load_bytes 8 pb) 0) as [E|E].
    - rewrite scan_zero by auto. change (Z.of_nat 8) with 8. rewrite IH.
      destruct (scan mb vb (n * 8) 1 sv os (pb + 8) (pv + 8 * sv) po); reflexivity.
    - rewrite word_bytes_scan by auto.
      assert (HP := scan_pos 8 1 sv os pb pv po).
      destruct (scan mb vb 8 1 sv os pb pv po) as [w [[a b] e]]. simpl in HP.
      rewrite IH. replace a with (pb + 8) by lia. reflexivity.
  Qed.

  Definition sel (sb sv : Z) (p : nat * nat) : list A :=
    map (fun i => vb (Z.of_nat i * sv)) (filter (mask_true mb sb) (seq (fst p) (snd p))).

  Definition bi_ok (isz sb sv : Z) : Prop := sb <> 1 \/ std_size isz = true \/ sv = isz.

  Lemma bi_callback_spec offs c isz sb sv p : bytes mb -> bi_ok isz sb sv ->
    bi_callback mb vb offs c isz sb sv p = enum isz (nth (fst p / c) offs 0 * isz) (sel sb sv p).
  Proof.
    intros Hb Hok. unfold bi_callback, sel. destruct p as [st len]. cbn [fst snd].
    destruct (Z.eqb_spec sb 1) as [->|Hne].
    - assert (Hos : (if std_size isz then isz else sv) = isz).
      { destruct Hok as [H|[H|H]]; [lia|now rewrite H|]. subst sv. destruct (std_size isz); auto. }
      rewrite Hos. rewrite word_loop_scan by auto.
      assert (E : len = (len / 8 * 8 + len mod 8)%nat).
      { rewrite (Nat.mul_comm (len / 8)). apply Nat.div_mod_eq. }
      assert (H := scan_app (len / 8 * 8) (len mod 8) 1 sv isz (Z.of_nat st * 1) (Z.of_nat st * sv) (nth (st / c) offs 0 * isz)).
      rewrite <- E in H. rewrite scan_spec in H.
      destruct (scan mb vb (len / 8 * 8) 1 sv isz (Z.of_nat st * 1) (Z.of_nat st * sv) (nth (st / c) offs 0 * isz)) as [w1 [[pb pv] po]].
      destruct (scan mb vb (len mod 8) 1 sv isz pb pv po) as [w2 e]. inversion H. reflexivity.
    - rewrite scan_spec. reflexivity.
  Qed.

  Lemma sel_length sb sv p : Z.of_nat (length (sel sb sv p)) = Z.of_nat (countb (mask_true mb sb) (seq (fst p) (snd p))).
  Proof. unfold sel. now rewrite map_length, countb_length_filter. Qed.

  Lemma sel_concat sb sv c len : (0 < c)%nat -> concat (map (sel sb sv) (chunks c len)) = sel sb sv (0%nat, len).
  Proof.
    intros Hc. unfold sel. cbn [fst snd]. rewrite <- (chunks_seq c len Hc).
    induction (chunks c len) as [|p l IH]; simpl; auto. rewrite filter_app, map_app, IH. reflexivity.
  Qed.
End BI.

Lemma combine_map_seq {B C} (f : nat -> B) (g : nat -> C) n : forall i0,
  combine (map f (seq i0 n)) (map g (seq i0 n)) = map (fun i => (f i, g i)) (seq i0 n).
Proof. induction n as [|n IH]; intros i0; simpl; auto. now rewrite IH. Qed.

(** A chunk-wise callback that places its piece at the offset of its chunk places everything. *)
Lemma chunk_offsets {A} (piece : nat * nat -> list A) s c len o offs : (0 < c)%nat ->
  offs = excl 0 (map (fun p => Z.of_nat (length (piece p))) (chunks c len)) ->
  concat (map (fun p => enum s (o + nth (fst p / c) offs 0 * s) (piece p)) (chunks c len)) =
  enum s o (concat (map piece (chunks c len))).
Proof.
  intros Hc Ho.
  rewrite <- (enum_excl s (map piece (chunks c len)) o). rewrite map_map. rewrite <- Ho.
  f_equal. unfold chunks at 1 2. rewrite !map_map. cbn [fst snd].
  assert (Hoffs : offs = map (fun b => nth b offs 0) (seq 0 ((len + (c - 1)) / c))).
  { apply list_ext. intros i. rewrite nth_error_map, nth_error_seq.
    assert (L : length offs = ((len + (c - 1)) / c)%nat).
    { rewrite Ho. rewrite excl_length, map_length. apply chunks_length. }
    destruct (Nat.ltb_spec i ((len + (c - 1)) / c)) as [H|H]; simpl.
    - apply nth_error_nth'. lia.
    - apply nth_error_ge. lia. }
  match goal with |- _ = map _ (combine ?X _) =>
    replace (combine X offs) with (combine X (map (fun b => nth b offs 0) (seq 0 ((len + (c - 1)) / c))))
      by (now rewrite <- Hoffs) end.
  rewrite combine_map_seq, map_map. cbn [fst snd].
  apply map_ext. intros b. rewrite Nat.div_mul by lia. f_equal. lia.
Qed.

Lemma zsum_nonneg_map {B} (f : B -> nat) l : 0 <= zsum (map (fun x => Z.of_nat (f x)) l).
Proof. induction l; simpl; unfold zsum in *; simpl; lia. Qed.

Lemma zsum_lengths {A B} (g : B -> list A) l : zsum (map (fun p => Z.of_nat (length (g p))) l) = Z.of_nat (length (concat (map g l))).
Proof. induction l as [|p l IH]; simpl; auto. rewrite app_length, Nat2Z.inj_add, <- IH. reflexivity. Qed.

Lemma boolean_index {A} mb (vb : Z -> A) ord1 ord2 thr c isz sb sv len junk d :
  fair ord1 -> fair ord2 -> bytes mb -> (0 < c)%nat -> (thr = true -> (0 < len)%nat) -> 0 < isz ->
  (sb <> 1 \/ std_size isz = true \/ sv = isz) ->
  BooleanIndex mb vb ord1 ord2 thr c isz sb sv len junk d =
    Some (map (fun i => vb (Z.of_nat i * sv)) (true_positions mb sb len)).
Proof.
  intros Hf1 Hf2 Hb Hc Ht Hisz Hok. unfold BooleanIndex, true_positions.
  change (map (fun i => vb (Z.of_nat i * sv)) (filter (mask_true mb sb) (seq 0 len))) with (sel mb vb sb sv (0%nat, len)).
  destruct thr.
  - rewrite BooleanCount_threaded by auto. rewrite firstn_all2 by (unfold piece_counts; now rewrite map_length).
    assert (E : piece_counts (mask_true mb sb) (chunks c len) = map (fun p => Z.of_nat (length (sel mb vb sb sv p))) (chunks c len)).
    { unfold piece_counts. apply map_ext. intros p. now rewrite sel_length. }
    rewrite E, zsum_lengths, (sel_concat mb vb sb sv c len Hc).
    set (spec := sel mb vb sb sv (0%nat, len)) in *.
    destruct (Z.ltb_spec 0 (Z.of_nat (length spec))) as [Hp|Hp].
    + apply item_writes_enum; auto; [|rewrite repeat_length; lia].
      rewrite (Hf2 _ _). unfold chunk_calls.
      rewrite (map_ext _ _ (fun p => bi_callback_spec mb vb _ c isz sb sv p Hb Hok)).
      change (fun x => enum isz (nth (fst x / c) ?o 0 * isz) (sel mb vb sb sv x)) with
        (fun x => enum isz (0 + nth (fst x / c) o 0 * isz) (sel mb vb sb sv x)).
      rewrite chunk_offsets by auto. rewrite sel_concat by auto. reflexivity.
    + assert (spec = []) as -> by (destruct spec; simpl in Hp; auto; lia). reflexivity.
  - destruct (BooleanCount_single ord1 c mb sb len junk Hf1 Hb Hc) as (rest & -> & _).
    cbn [firstn]. change (zsum [?x]) with (x + 0). rewrite Z.add_0_r.
    assert (L := sel_length mb vb sb sv (0%nat, len)). cbn [fst snd] in L. rewrite <- L.
    set (spec := sel mb vb sb sv (0%nat, len)) in *.
    destruct (Z.ltb_spec 0 (Z.of_nat (length spec))) as [Hp|Hp].
    + apply item_writes_enum; auto; [|rewrite repeat_length; lia].
      rewrite (Hf2 _ _). unfold chunk_calls. cbn [map concat]. rewrite app_nil_r, bi_callback_spec by auto.
      cbn [fst]. rewrite Nat.div_0_l by lia. cbn. reflexivity.
    + assert (spec = []) as -> by (destruct spec; simpl in Hp; auto; lia). reflexivity.
Qed.
