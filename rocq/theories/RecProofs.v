(** Record arrays to columns. *)
From Verif Require Import Base Mem MemLemmas Par Inter RecModel RecSpec.
Local Open Scope Z_scope.

Lemma filter_permutation {A} (f : A -> bool) l l' : Permutation l l' -> Permutation (filter f l) (filter f l').
Proof.
  induction 1 as [|x l l' P IH|x y l|l l1 l' P1 IH1 P2 IH2]; cbn; auto.
  - destruct (f x); auto.
  - destruct (f x), (f y); auto. constructor.
  - now transitivity (filter f l1).
Qed.

Section Bytes.
  Context (src : list Z).
  Definition sl (p : Z) (k : nat) : list Z := firstn k (skipn (Z.to_nat p) src).
  Lemma sl_length p k : 0 <= p -> p + Z.of_nat k <= Z.of_nat (length src) -> length (sl p k) = k.
  Proof. intros. unfold sl. rewrite firstn_length, skipn_length. lia. Qed.
  Lemma sl_S p k c : 0 <= p -> nth_error src (Z.to_nat p) = Some c -> sl p (S k) = c :: sl (p + 1) k.
  Proof.
    intros Hp E. unfold sl. apply nth_error_split in E. destruct E as (a & b & -> & L). rewrite <- L at 1. rewrite skipn_app, skipn_all2, Nat.sub_diag by lia.
    cbn [skipn app firstn]. f_equal. replace (Z.to_nat (p + 1)) with (S (length a)) by lia. change (c :: b) with ([c] ++ b). rewrite app_assoc, skipn_app, skipn_all2 by (rewrite app_length; cbn; lia).
    rewrite app_length. cbn [length app]. replace (S (length a) - (length a + 1))%nat with 0%nat by lia. reflexivity.
  Qed.
  Lemma sl_app p a b : 0 <= p -> p + Z.of_nat (a + b) <= Z.of_nat (length src) -> sl p (a + b) = sl p a ++ sl (p + Z.of_nat a) b.
  Proof.
    revert p. induction a as [|a IH]; intros p Hp H.
    - cbn [Nat.add]. now rewrite Z.add_0_r.
    - destruct (nth_error_lt src (Z.to_nat p)) as (c & E); [lia|]. cbn [Nat.add]. rewrite !(sl_S p _ c) by auto. rewrite IH by lia. cbn. do 2 f_equal. f_equal. lia.
  Qed.
  Lemma rd_bytes_ok k : forall p, 0 <= p -> p + Z.of_nat k <= Z.of_nat (length src) -> rd_bytes src p k = Some (sl p k).
  Proof.
    induction k as [|k IH]; intros p Hp H; [reflexivity|]. cbn [rd_bytes]. destruct (nth_error_lt src (Z.to_nat p)) as (c & E); [lia|].
    rewrite zrd_some, E, IH, (sl_S p k c) by (auto; lia). reflexivity.
  Qed.
  Lemma copy1_ok f : forall p d k, 0 <= p -> p + Z.of_nat k <= Z.of_nat (length src) -> (k < f)%nat ->
    copy1 src f p d (p + Z.of_nat k) = Some (enum 1 d (sl p k)).
  Proof.
    induction f as [|f IH]; intros p d k Hp H Hf; [lia|]. cbn [copy1]. destruct k as [|k].
    - replace (p <? p + Z.of_nat 0) with false by lia. reflexivity.
    - replace (p <? p + Z.of_nat (S k)) with true by lia. destruct (nth_error_lt src (Z.to_nat p)) as (c & E); [lia|]. rewrite zrd_some, E by auto.
      replace (p + Z.of_nat (S k)) with (p + 1 + Z.of_nat k) by lia. rewrite IH by lia. rewrite (sl_S p k c) by auto. reflexivity.
  Qed.
  Lemma copy8_ok f : forall p d k, 0 <= p -> p + Z.of_nat k <= Z.of_nat (length src) -> (k < f)%nat ->
    exists j, (j <= k)%nat /\ copy8 src f p d (p + Z.of_nat k) = Some (enum 1 d (sl p j), p + Z.of_nat j, d + Z.of_nat j).
  Proof.
    induction f as [|f IH]; intros p d k Hp H Hf; [lia|]. cbn [copy8]. destruct (Z.ltb_spec (p + 8) (p + Z.of_nat k)) as [Q|Q].
    - rewrite rd_bytes_ok by lia. replace (p + Z.of_nat k) with (p + 8 + Z.of_nat (k - 8)) by lia. destruct (IH (p + 8) (d + 8) (k - 8)%nat) as (j & Hj & ->); try lia.
      exists (8 + j)%nat. split; [lia|]. rewrite (sl_app p 8 j) by lia. rewrite enum_app, sl_length by lia. change (Z.of_nat 8) with 8. rewrite Z.mul_1_l, Nat2Z.inj_add, !Z.add_assoc. reflexivity.
    - exists 0%nat. split; [lia|]. cbn. do 3 f_equal; lia.
  Qed.
End Bytes.

Section Rows.
  Context (src : list Z) (isz rows : nat) (Hsrc : length src = (rows * isz)%nat).
  Local Notation itemSize := (Z.of_nat isz).
  Section Col.
    Context (off sz : nat) (Hoff : (off + sz <= isz)%nat).
    Local Notation pRead := (Z.of_nat off).
    Definition row_ws (r : nat) : list (Z * Z) := enum 1 (Z.of_nat (r * sz)) (field src isz off sz r).
    Definition col_ws (s n : nat) : list (Z * Z) := concat (map row_ws (seq s n)).

    Lemma col_ws_app s a b : col_ws s (a + b) = col_ws s a ++ col_ws (s + a) b.
    Proof. unfold col_ws. now rewrite seq_app, map_app, concat_app. Qed.
    Lemma col_ws_S s n : col_ws s (S n) = row_ws s ++ col_ws (S s) n.
    Proof. reflexivity. Qed.

    Lemma field_sl r : field src isz off sz r = sl src (pRead + Z.of_nat r * itemSize) sz.
    Proof. unfold field, sl. do 2 f_equal. nia. Qed.
    Lemma fits r : (r < rows)%nat -> 0 <= pRead + Z.of_nat r * itemSize /\ pRead + Z.of_nat r * itemSize + Z.of_nat sz <= Z.of_nat (length src).
    Proof. intros. rewrite Hsrc. nia. Qed.
    Lemma field_length r : (r < rows)%nat -> length (field src isz off sz r) = sz.
    Proof. intros H. rewrite field_sl. apply sl_length; now apply fits. Qed.

    Lemma scalar_ok f : forall s e, (s <= e <= rows)%nat -> (e - s < f)%nat ->
      scalar_rows src itemSize f sz pRead (Z.of_nat s) (Z.of_nat e) = Some (col_ws s (e - s)).
    Proof.
      induction f as [|f IH]; intros s e He Hf; [lia|]. cbn [scalar_rows]. destruct (Z.ltb_spec (Z.of_nat s) (Z.of_nat e)) as [Q|Q].
      - rewrite rd_bytes_ok by (apply fits; lia). rewrite <- field_sl. replace (Z.of_nat s + 1) with (Z.of_nat (S s)) by lia. rewrite IH by lia.
        replace (e - s)%nat with (S (e - S s)) by lia. rewrite col_ws_S. unfold row_ws at 1. do 2 f_equal. f_equal. lia.
      - replace (e - s)%nat with 0%nat by lia. reflexivity.
    Qed.

    Lemma lane_ok k : itemSize * Z.of_nat k < 2 ^ 31 -> itemSize < 2 ^ 31 -> lane itemSize k = itemSize * Z.of_nat k.
    Proof.
      intros A B. unfold lane. rewrite (wrap_id 32 itemSize) by (change (32 - 1) with 31; lia). apply wrap_id; change (32 - 1) with 31; lia.
    Qed.
    Lemma enum_rows s n : (s + n <= rows)%nat -> enum 1 (Z.of_nat (s * sz)) (concat (map (field src isz off sz) (seq s n))) = col_ws s n.
    Proof.
      revert s. induction n as [|n IH]; intros s H; [reflexivity|]. rewrite col_ws_S. cbn [seq map concat]. rewrite enum_app. rewrite field_length by lia. unfold row_ws at 1. f_equal.
      rewrite <- IH by lia. f_equal. lia.
    Qed.

    Lemma gather_ok w f : (0 < w)%nat -> forall s e, (s <= e <= rows)%nat -> (e - s < f)%nat -> (((w < e - s)%nat -> itemSize * Z.of_nat w < 2 ^ 31)) ->
      exists j, (s <= j <= e)%nat /\ gather_rows src itemSize f w sz pRead (Z.of_nat s) (Z.of_nat e - Z.of_nat w) = Some (col_ws s (j - s), Z.of_nat j).
    Proof.
      intros Hw. induction f as [|f IH]; intros s e He Hf Hg; [lia|]. cbn [gather_rows]. destruct (Z.ltb_spec (Z.of_nat s) (Z.of_nat e - Z.of_nat w)) as [Q|Q].
      - assert (G : itemSize * Z.of_nat w < 2 ^ 31) by (apply Hg; lia).
        rewrite (all_some_map _ (fun k => field src isz off sz (s + k))).
        + replace (Z.of_nat s + Z.of_nat w) with (Z.of_nat (s + w)) by lia. destruct (IH (s + w)%nat e) as (j & Hj & ->); try lia.
          exists j. split; [lia|]. do 2 f_equal. replace (j - s)%nat with (w + (j - (s + w)))%nat by lia. rewrite col_ws_app. f_equal.
          rewrite <- enum_rows by lia. f_equal; [lia|]. f_equal. replace (seq s w) with (map (fun k => (s + k)%nat) (seq 0 w)); [now rewrite map_map|].
          clear. apply list_ext. intros i. rewrite nth_error_map, !nth_error_seq. destruct (i <? w)%nat; reflexivity.
        + intros k Hk. apply in_seq in Hk. rewrite lane_ok by nia.
          replace (pRead + Z.of_nat s * itemSize + itemSize * Z.of_nat k) with (pRead + Z.of_nat (s + k) * itemSize) by lia.
          rewrite rd_bytes_ok by (apply fits; lia). now rewrite field_sl.
      - exists s. split; [lia|]. rewrite Nat.sub_diag. reflexivity.
    Qed.
    Lemma vector_ok w f s e : (0 < w)%nat -> (s <= e <= rows)%nat -> (e - s < f)%nat -> (((w < e - s)%nat -> itemSize * Z.of_nat w < 2 ^ 31)) ->
      vector_rows src itemSize f w sz pRead (Z.of_nat s) (Z.of_nat e) = Some (col_ws s (e - s)).
    Proof.
      intros Hw He Hf Hg. unfold vector_rows. destruct (gather_ok w f Hw s e He Hf Hg) as (j & Hj & ->). rewrite scalar_ok by lia.
      replace (e - s)%nat with ((j - s) + (e - j))%nat by lia. rewrite col_ws_app. do 2 f_equal. f_equal. lia.
    Qed.
    Lemma default_ok f : forall s e, (s <= e <= rows)%nat -> (e - s < f)%nat ->
      default_rows src itemSize f sz pRead (Z.of_nat s) (Z.of_nat e) = Some (col_ws s (e - s)).
    Proof.
      induction f as [|f IH]; intros s e He Hf; [lia|]. cbn [default_rows]. destruct (Z.ltb_spec (Z.of_nat s) (Z.of_nat e)) as [Q|Q].
      - destruct (fits s) as (F0 & F1); [lia|].
        destruct (copy8_ok src (S sz) (pRead + Z.of_nat s * itemSize) (Z.of_nat s * Z.of_nat sz) sz F0 F1) as (j & Hj & ->); [lia|].
        replace (pRead + Z.of_nat s * itemSize + Z.of_nat sz) with (pRead + Z.of_nat s * itemSize + Z.of_nat j + Z.of_nat (sz - j)) by lia.
        rewrite copy1_ok by lia. replace (Z.of_nat s + 1) with (Z.of_nat (S s)) by lia. rewrite IH by lia. replace (e - s)%nat with (S (e - S s)) by lia.
        rewrite col_ws_S. unfold row_ws at 1. rewrite field_sl. replace (sl src (pRead + Z.of_nat s * itemSize) sz) with (sl src (pRead + Z.of_nat s * itemSize) (j + (sz - j))) by (f_equal; lia).
        rewrite sl_app, enum_app, sl_length by lia. rewrite <- app_assoc. replace (Z.of_nat (s * sz)) with (Z.of_nat s * Z.of_nat sz) by lia. do 3 f_equal. f_equal. lia.
      - replace (e - s)%nat with 0%nat by lia. reflexivity.
    Qed.
    Lemma column_ok f s e : (s <= e <= rows)%nat -> (e - s < f)%nat -> ((4 < e - s)%nat -> itemSize * 8 < 2 ^ 31) ->
      column_rows src itemSize f pRead sz (Z.of_nat s) (Z.of_nat e) = Some (col_ws s (e - s)).
    Proof.
      intros He Hf Hg. unfold column_rows.
      assert (A : forall z : nat, match z with
        | 1%nat | 2%nat => scalar_rows src itemSize f sz pRead (Z.of_nat s) (Z.of_nat e)
        | 4%nat => vector_rows src itemSize f 8 sz pRead (Z.of_nat s) (Z.of_nat e)
        | 8%nat => vector_rows src itemSize f 4 sz pRead (Z.of_nat s) (Z.of_nat e)
        | _ => default_rows src itemSize f sz pRead (Z.of_nat s) (Z.of_nat e) end = Some (col_ws s (e - s))); [|apply A].
      intros z. destruct z as [|[|[|[|[|[|[|[|[|z]]]]]]]]]; first [now apply scalar_ok | now apply default_ok | apply vector_ok; auto; lia].
    Qed.
  End Col.

  Context (fields : list (nat * nat)) (Hfields : forall o s, In (o, s) fields -> (o + s <= isz)%nat) (Hi : (0 < isz)%nat).
  Local Notation zfields := (map (fun f : nat * nat => (Z.of_nat (fst f), snd f)) fields).

  Definition marked (s n : nat) : list (nat * (Z * Z)) :=
    concat (map (fun c : nat * (nat * nat) => map (pair (fst c)) (col_ws (fst (snd c)) (snd (snd c)) s n)) (combine (seq 0 (length fields)) fields)).

  Lemma combine_map_r {A B C} (g : B -> C) (l : list A) (r : list B) : combine l (map g r) = map (fun p => (fst p, g (snd p))) (combine l r).
  Proof. revert r. induction l as [|x l IH]; intros [|y r]; cbn; auto. now rewrite IH. Qed.

  Lemma all_columns_ok f s e : (s <= e <= rows)%nat -> (e - s < f)%nat -> ((4 < e - s)%nat -> itemSize * 8 < 2 ^ 31) ->
    all_columns src itemSize zfields f (Z.of_nat s) (Z.of_nat e) = Some (marked s (e - s)).
  Proof.
    intros He Hf Hg. unfold all_columns. rewrite map_length, combine_map_r, map_map.
    rewrite (all_some_map _ (fun c : nat * (nat * nat) => map (pair (fst c)) (col_ws (fst (snd c)) (snd (snd c)) s (e - s)))); [reflexivity|].
    intros (i & (o & z)) H. cbn [fst snd]. apply in_combine_r in H. rewrite column_ok by (auto; now apply Hfields). reflexivity.
  Qed.

  Lemma marked_filter s n i o z : nth_error fields i = Some (o, z) -> map snd (filter (fun w => (fst w =? i)%nat) (marked s n)) = col_ws o z s n.
  Proof.
    unfold marked. clear. assert (G : forall b l, nth_error l i = Some (o, z) ->
      map snd (filter (fun w : nat * (Z * Z) => (fst w =? b + i)%nat) (concat (map (fun c : nat * (nat * nat) => map (pair (fst c)) (col_ws (fst (snd c)) (snd (snd c)) s n)) (combine (seq b (length l)) l)))) = col_ws o z s n);
      [|intros H; now apply (G 0%nat)].
    induction i as [|i IH]; intros b [|[o' z'] l] H; try discriminate; cbn [length seq combine map concat fst snd]; rewrite filter_app, map_app.
    - cbn in H. injection H as -> ->. rewrite Nat.add_0_r.
      assert (A : forall l' : list (Z * Z), map snd (filter (fun w : nat * (Z * Z) => (fst w =? b)%nat) (map (pair b) l')) = l').
      { induction l' as [|x l' IH]; auto. cbn. rewrite Nat.eqb_refl. cbn. now rewrite IH. }
      rewrite A. rewrite <- (app_nil_r (col_ws o z s n)) at 2. f_equal.
      assert (B : forall c l', (b < c)%nat -> filter (fun w : nat * (Z * Z) => (fst w =? b)%nat) (concat (map (fun c : nat * (nat * nat) => map (pair (fst c)) (col_ws (fst (snd c)) (snd (snd c)) s n)) (combine (seq c (length l')) l'))) = []).
      { intros c l'. revert c. induction l' as [|y l' IH]; intros c Hc; auto. cbn [length seq combine map concat fst snd]. rewrite filter_app, IH by lia. rewrite app_nil_r.
        generalize (col_ws (fst y) (snd y) s n) as q. induction q as [|x q IHq]; auto. cbn. replace (c =? b)%nat with false by (symmetry; apply Nat.eqb_neq; lia). auto. }
      rewrite B by lia. reflexivity.
    - cbn in H. replace (filter (fun w : nat * (Z * Z) => (fst w =? b + S i)%nat) (map (pair b) (col_ws o' z' s n))) with (@nil (nat * (Z * Z))).
      + cbn [map app]. rewrite <- (IH (S b) l H). rewrite Nat.add_succ_r. reflexivity.
      + generalize (col_ws o' z' s n) as q. induction q as [|x q IHq]; auto. cbn. replace (b =? b + S i)%nat with false by (symmetry; apply Nat.eqb_neq; lia). auto.
  Qed.

  Lemma chunkrows_pos : 1 <= CHUNKROWS itemSize.
  Proof. unfold CHUNKROWS. destruct (Z.ltb_spec (Z.quot L1CACHE (itemSize * 2)) 1); lia. Qed.
  Lemma chunkrows_small : 4 < CHUNKROWS itemSize -> itemSize * 8 < 2 ^ 31.
  Proof.
    unfold CHUNKROWS, L1CACHE. intros H. destruct (Z.ltb_spec (Z.quot 32768 (itemSize * 2)) 1); [lia|].
    assert (itemSize * 2 * Z.quot 32768 (itemSize * 2) <= 32768) by (apply Z.mul_quot_le; lia). nia.
  Qed.

  Lemma loop_ok f : fields <> [] -> forall s e, (s <= e <= rows)%nat -> (e - s < f)%nat ->
    exists ws, convert_loop src itemSize zfields f (Z.of_nat s) (Z.of_nat e) = Some ws /\
      forall i o z, nth_error fields i = Some (o, z) -> map snd (filter (fun w => (fst w =? i)%nat) ws) = col_ws o z s (e - s).
  Proof.
    intros Hne. pose proof chunkrows_pos as Hp. induction f as [|f IH]; intros s e He Hf; [lia|]. cbn [convert_loop]. destruct (Z.ltb_spec (Z.of_nat s) (Z.of_nat e)) as [Q|Q].
    - set (m := Z.to_nat (Z.min (Z.of_nat s + CHUNKROWS itemSize) (Z.of_nat e))).
      replace (Z.min (Z.of_nat s + CHUNKROWS itemSize) (Z.of_nat e)) with (Z.of_nat m) by lia. assert (Hm : (s < m <= e)%nat) by lia.
      rewrite all_columns_ok; [|lia|lia|intros; apply chunkrows_small; lia].
      rewrite map_length. replace (length fields =? 0)%nat with false by (destruct fields; [contradiction|reflexivity]).
      destruct (IH m e) as (ws & -> & Hws); try lia. eexists. split; [reflexivity|]. intros i o z Hz. rewrite filter_app, map_app, (marked_filter _ _ i o z Hz), (Hws i o z Hz).
      replace (e - s)%nat with ((m - s) + (e - m))%nat by lia. rewrite col_ws_app. do 2 f_equal. lia.
    - exists []. split; auto. intros. replace (e - s)%nat with 0%nat by lia. reflexivity.
  Qed.

  Lemma convert_ok f s e : fields <> [] -> (s <= e <= rows)%nat -> (e - s < f)%nat ->
    exists ws, ConvertRecArray src itemSize zfields f (Z.of_nat s) (Z.of_nat e) = Some ws /\
      forall i o z, nth_error fields i = Some (o, z) -> map snd (filter (fun w => (fst w =? i)%nat) ws) = col_ws o z s (e - s).
  Proof. intros. unfold ConvertRecArray. replace (itemSize * 2 =? 0) with false by lia. now apply loop_ok. Qed.

  Lemma calls_in thr c n call : (0 < c)%nat -> In call (chunk_calls thr c n) -> (fst call + snd call <= n)%nat.
  Proof.
    intros Hc H. destruct thr; cbn in H.
    - destruct call as [s l]. apply chunks_in in H; auto. cbn. lia.
    - destruct H as [<-|[]]. cbn. lia.
  Qed.

  Lemma RecordArrayToColMajor_ok ord f cols : fair ord -> fields <> [] -> (rows < f)%nat -> length cols = length fields ->
    (forall i o z c, nth_error fields i = Some (o, z) -> nth_error cols i = Some c -> (rows * z <= length c)%nat) ->
    RecordArrayToColMajor src itemSize zfields ord f rows cols =
      Some (map (fun p : (nat * nat) * list Z => column src isz (fst (fst p)) (snd (fst p)) rows (snd p)) (combine fields cols)).
  Proof.
    intros Ho Hne Hf Hl Hc. unfold RecordArrayToColMajor.
    assert (E : exists wss, all_some (map (fun call : nat * nat => ConvertRecArray src itemSize zfields f (Z.of_nat (fst call)) (Z.of_nat (fst call + snd call))) (rec_calls rows)) = Some wss /\
      forall i o z, nth_error fields i = Some (o, z) -> map snd (filter (fun w => (fst w =? i)%nat) (concat wss)) = concat (map (fun call => col_ws o z (fst call) (snd call)) (rec_calls rows))).
    { assert (H : forall call, In call (rec_calls rows) -> (fst call + snd call <= rows)%nat) by (intros call; apply calls_in; unfold CHUNKSIZE; lia).
      revert H. generalize (rec_calls rows) as l. induction l as [|[s n] l IH]; intros H; [exists []; split; auto|].
      destruct IH as (wss & E & Hw); [intros; apply H; cbn; auto|]. pose proof (H (s, n) (or_introl eq_refl)) as H0. cbn [fst snd] in H0.
      destruct (convert_ok f s (s + n) Hne) as (ws & E1 & H1); try lia. cbn [map fst snd all_some]. rewrite E1, E. eexists. split; [reflexivity|].
      intros i o z Hz. cbn [concat map fst snd]. rewrite filter_app, map_app, (H1 i o z Hz), (Hw i o z Hz). do 2 f_equal. lia. }
    destruct E as (wss & -> & Hw). cbv zeta.
    assert (W : forall i o z c, nth_error fields i = Some (o, z) -> nth_error cols i = Some c ->
      writes (map snd (filter (fun w : nat * (Z * Z) => (fst w =? i)%nat) (ord _ (concat wss)))) c = Some (column src isz o z rows c)).
    { intros i o z c Hz Hc'. specialize (Hw i o z Hz). specialize (Hc i o z c Hz Hc').
      assert (Oz : (o + z <= isz)%nat) by (apply Hfields; eapply nth_error_In; eauto).
      assert (P : Permutation (map snd (filter (fun w : nat * (Z * Z) => (fst w =? i)%nat) (ord _ (concat wss)))) (enum 1 0 (concat (map (field src isz o z) (seq 0 rows))))).
      { rewrite <- (Nat2Z.id 0). change (enum 1 0) with (enum (A := Z) 1 (Z.of_nat (0 * z))). rewrite enum_rows by (cbn [Z.of_nat Z.to_nat]; auto; lia).
        etransitivity; [apply Permutation_map, filter_permutation, Ho|]. rewrite Hw. unfold col_ws. cbn [Z.of_nat Z.to_nat].
        rewrite <- (chunk_calls_map (CHUNKSIZE <? rows)%nat CHUNKSIZE rows (row_ws o z)) by (unfold CHUNKSIZE; lia).
        fold (rec_calls rows). generalize (rec_calls rows) as l. induction l as [|x l IHl]; cbn [map concat]; [auto|]. rewrite concat_app. now apply Permutation_app_head. }
      assert (L : length (concat (map (field src isz o z) (seq 0 rows))) = (rows * z)%nat).
      { assert (G : forall n s, (s + n <= rows)%nat -> length (concat (map (field src isz o z) (seq s n))) = (n * z)%nat); [|apply G; lia].
        induction n as [|n IH]; intros s H; [reflexivity|]. cbn [seq map concat]. rewrite app_length, IH, field_length by (auto; lia). lia. }
      rewrite (writes_enum_prefix _ _ c P) by (rewrite L; auto). unfold column. now rewrite L. }
    clear Hw Hc. revert Hl W. generalize (ord _ (concat wss)) as ws. clear. intros ws Hl W.
    assert (G : forall b fs cs, length cs = length fs -> (forall i o z c, nth_error fs i = Some (o, z) -> nth_error cs i = Some c ->
        writes (map snd (filter (fun w : nat * (Z * Z) => (fst w =? b + i)%nat) ws)) c = Some (column src isz o z rows c)) ->
      all_some (map (fun c : nat * list Z => writes (map snd (filter (fun w => (fst w =? fst c)%nat) ws)) (snd c)) (combine (seq b (length cs)) cs)) =
      Some (map (fun p : (nat * nat) * list Z => column src isz (fst (fst p)) (snd (fst p)) rows (snd p)) (combine fs cs))); [|now apply (G 0%nat)].
    intros b fs. revert b. induction fs as [|[o z] fs IH]; intros b [|c cs] L H; try discriminate; [reflexivity|]. cbn [length seq combine map all_some fst snd].
    pose proof (H 0%nat o z c eq_refl eq_refl) as H0. rewrite Nat.add_0_r in H0. rewrite H0. rewrite IH; auto.
    intros i o' z' c' A B. rewrite <- (H (S i) o' z' c' A B). now rewrite Nat.add_succ_r.
  Qed.
End Rows.

(** without columns the loop does not advance *)
Lemma convert_forever src isz f s e : s < e -> ConvertRecArray src isz [] f s e = None.
Proof.
  intros H. unfold ConvertRecArray. destruct (_ =? 0); auto. induction f as [|f IH]; auto. cbn [convert_loop length Nat.eqb]. replace (s <? e) with true by lia.
  destruct (all_columns _ _ _ _ _ _); auto. now rewrite IH.
Qed.
