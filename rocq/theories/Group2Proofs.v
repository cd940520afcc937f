(** Proofs: GroupFromBinCount, BinCount, MakeiNext. *)
From Verif Require Import Base Mem MemLemmas Inter SegModel SegSpec SegProofs GroupModel GroupSpec GroupProofs.
Local Open Scope Z_scope.

Lemma fix_ops_in g lo hi : lo <= g < hi ->
  filter (op_on g) (map (fun k => Fix (lo + Z.of_nat k)) (seq 0 (Z.to_nat (hi - lo)))) = [Fix g].
Proof.
  intros Hg. replace (Z.to_nat (hi - lo)) with (Z.to_nat (g - lo) + (1 + Z.to_nat (hi - g - 1)))%nat by lia.
  rewrite seq_app, map_app, filter_app, seq_app, map_app, filter_app. simpl.
  assert (N : forall s n, (forall k, (s <= k < s + n)%nat -> lo + Z.of_nat k <> g) ->
    filter (op_on g) (map (fun k => Fix (lo + Z.of_nat k)) (seq s n)) = []).
  { intros s n. revert s. induction n as [|n IH]; intros s H; simpl; auto.
    unfold op_on at 1. cbn [op_key]. rewrite (proj2 (Z.eqb_neq _ _)) by (apply H; lia).
    apply IH. intros k Hk. apply H. lia. }
  rewrite (N 0%nat) by lia. rewrite N by lia.
  unfold op_on. cbn [op_key]. rewrite (proj2 (Z.eqb_eq _ _)) by lia. simpl. f_equal. f_equal. lia.
Qed.

Lemma fix_ops_out g lo hi : ~ lo <= g < hi ->
  filter (op_on g) (map (fun k => Fix (lo + Z.of_nat k)) (seq 0 (Z.to_nat (hi - lo)))) = [].
Proof.
  intros Hg.
  assert (N : forall n s, (forall k, (s <= k < s + n)%nat -> lo + Z.of_nat k <> g) ->
    filter (op_on g) (map (fun k => Fix (lo + Z.of_nat k)) (seq s n)) = []).
  { induction n as [|n IH]; intros s H; simpl; auto.
    unfold op_on at 1. cbn [op_key]. rewrite (proj2 (Z.eqb_neq _ _)) by (apply H; lia).
    apply IH. intros k Hk. apply H. lia. }
  apply N. lia.
Qed.

Lemma band_ops_in g lo hi keys : lo <= g < hi ->
  filter (op_on g) (band_ops keys lo hi) = map (fun i => Row i g) (rows_with keys g) ++ [Fix g].
Proof.
  intros Hg. unfold band_ops. rewrite filter_app, ops_of_bin, fix_ops_in by auto. now rewrite sel_numbered.
Qed.

Lemma band_ops_out g lo hi keys : ~ lo <= g < hi -> filter (op_on g) (band_ops keys lo hi) = [].
Proof. intros Hg. unfold band_ops. rewrite filter_app, ops_of_other_bin, fix_ops_out by auto. reflexivity. Qed.

Lemma band_ops_keys keys lo hi o : In o (band_ops keys lo hi) -> lo <= op_key o < hi.
Proof.
  unfold band_ops. rewrite in_app_iff, !in_map_iff. intros [([i k] & <- & H)|(k & <- & H)].
  - apply filter_In in H as [_ H]. simpl in *. lia.
  - apply in_seq in H. simpl. lia.
Qed.

Lemma gfb_bands_spec thr futex n rows : 0 < futex -> 0 < n -> contiguous 0 n (gfb_bands thr futex n rows).
Proof.
  intros Hf Hn. unfold gfb_bands. destruct (thr && _).
  - now apply segment_bins_spec.
  - simpl. lia.
Qed.

Lemma gfb_ops_of_bin thr futex keys ncount ops : 0 < futex -> interleave (gfb_programs thr futex keys ncount) ops ->
  (forall o, In o ops -> 0 <= op_key o < Z.of_nat (length ncount)) /\
  forall g, 0 <= g < Z.of_nat (length ncount) ->
    filter (op_on g) ops = map (fun i => Row i g) (rows_with keys g) ++ [Fix g].
Proof.
  intros Hf H. unfold gfb_programs in H.
  destruct (Z.eq_dec (Z.of_nat (length ncount)) 0) as [E0|E0].
  - split; [|lia]. intros o Ho. exfalso.
    destruct (interleave_in _ _ _ H Ho) as (p & Hp & Hop).
    apply in_map_iff in Hp as (b & <- & Hb). apply band_ops_keys in Hop.
    unfold gfb_bands in Hb. rewrite E0 in Hb. destruct (thr && _).
    + rewrite segment_bins_empty in Hb by lia. destruct Hb.
    + destruct Hb as [<-|[]]. simpl in Hop. lia.
  - assert (C := gfb_bands_spec thr futex (Z.of_nat (length ncount)) (Z.of_nat (length keys)) Hf ltac:(lia)).
    set (bands := gfb_bands _ _ _ _) in *. clearbody bands. split.
    + intros o Ho. destruct (interleave_in _ _ _ H Ho) as (p & Hp & Hop).
      apply in_map_iff in Hp as (b & <- & Hb). apply band_ops_keys in Hop.
      destruct (contiguous_in _ _ _ _ C Hb). lia.
    + intros g Hg. destruct (contiguous_cover _ _ _ g C Hg) as (j & b & Hj & Hb & Hu).
      rewrite (interleave_filter (op_on g) _ _ H j (band_ops keys (fst b) (snd b))).
      * apply band_ops_in. exact Hb.
      * rewrite nth_error_map, Hj. reflexivity.
      * intros j' q Hq Hn. rewrite nth_error_map in Hq. destruct (nth_error bands j') as [b'|] eqn:Eb; [|discriminate].
        inversion Hq; subst q. apply band_ops_out. intros Hin. apply Hn. apply (Hu j' b' Eb). exact Hin.
Qed.

Lemma concat_map_ext_in {A B} (f g : A -> list B) l : (forall x, In x l -> f x = g x) -> concat (map f l) = concat (map g l).
Proof. intros H. f_equal. now apply map_ext_in. Qed.

Theorem group_from_bincount thr futex keys ncount ops junk :
  0 < futex -> histogram (Z.of_nat (length ncount)) keys ncount -> length junk = length keys ->
  interleave (gfb_programs thr futex keys ncount) ops ->
  exists igroup ifirst, GroupFromBinCount ops ncount junk = Some (igroup, ifirst) /\
    packed_rows (Z.of_nat (length ncount)) keys ncount igroup ifirst /\
    (all_in_range (Z.of_nat (length ncount)) keys -> all_rows keys igroup).
Proof.
  intros Hf Hh Lj H. apply gfb_ops_of_bin in H as [Hr Hg]; auto.
  set (n := length ncount) in *. apply histogram_eq in Hh.
  unfold GroupFromBinCount. subst n. set (n := length ncount) in *. clearbody n. rewrite Hh, excl_tab.
  destruct (run_ops_spec ops n (count_of keys) (before (count_of keys)) Hr) as (ws & -> & P).
  assert (P2 : Permutation ws (enum 1 0 (grouped n keys))).
  { rewrite P, <- grouped_enum. erewrite concat_map_ext_in; [reflexivity|].
    intros g Hgi. apply zseq_in in Hgi. rewrite (Hg g Hgi), places_rows. simpl. apply app_nil_r. }
  rewrite (writes_enum_prefix _ _ _ P2) by (rewrite Lj; apply grouped_le).
  eexists _, _. split; [reflexivity|].
  assert (Lg : length (grouped n keys ++ skipn (length (grouped n keys)) junk) = length keys).
  { rewrite app_length, skipn_length. pose proof (grouped_le n keys). lia. }
  rewrite (tab_ext n (fun g => cursor (count_of keys g) (before (count_of keys) g) (filter (op_on g) ops)) (before (count_of keys))).
  - split; [eapply packed_grouped; eauto|].
    intros Ha. unfold all_rows. assert (Pg := grouped_perm n keys Ha).
    assert (length (grouped n keys) = length keys) by (rewrite (Permutation_length Pg); unfold zseq; now rewrite map_length, seq_length).
    rewrite skipn_all2 by lia. rewrite app_nil_r. exact Pg.
  - intros g Hgi. rewrite (Hg g Hgi), cursor_rows. cbn [cursor]. rewrite rows_with_length. lia.
Qed.

(** ** BinCount *)
Lemma cumsum_spec col : forall v, cumsum v col = (excl v col, v + zsum col).
Proof.
  induction col as [|c col IH]; intros v; simpl.
  - f_equal. lia.
  - rewrite IH. f_equal. unfold zsum. simpl. lia.
Qed.

Lemma cumsum2_spec (colf : nat -> list Z) n : forall s v,
  cumsum2 v (map colf (seq s n)) =
  map (fun i => excl (v + zsum (map (fun j => zsum (colf j)) (seq s (i - s)))) (colf i)) (seq s n).
Proof.
  induction n as [|n IH]; intros s v; simpl; auto.
  rewrite cumsum_spec. f_equal.
  - rewrite Nat.sub_diag. simpl. f_equal. unfold zsum. simpl. lia.
  - rewrite IH. apply map_ext_in. intros i Hi. apply in_seq in Hi. f_equal.
    replace (i - s)%nat with (S (i - S s)) by lia. cbn [seq map]. unfold zsum. cbn [fold_right]. lia.
Qed.

Lemma column_map {A} (f : A -> list Z) l i : column (map f l) i = map (fun x => nth i (f x) 0) l.
Proof. unfold column. now rewrite map_map. Qed.

Lemma nth_tab {A} n (f : Z -> A) i d : (i < n)%nat -> nth i (tab n f) d = f (Z.of_nat i).
Proof. intros H. apply nth_error_nth. now apply tab_nth. Qed.

(** The counts of all workers add up *)
Lemma add_counts_tab n f g : add_counts (tab n f) (tab n g) = tab n (fun k => f k + g k).
Proof.
  unfold add_counts, tab. induction (seq 0 n) as [|i l IH]; simpl; auto. now rewrite IH.
Qed.

Lemma total_counts_spec {A} n (f : A -> Z -> Z) bs : forall b,
  total_counts (map (fun b => tab n (f b)) (b :: bs)) = tab n (fun g => zsum (map (fun b => f b g) (b :: bs))).
Proof.
  assert (G : forall bs h, fold_left add_counts (map (fun b => tab n (f b)) bs) (tab n h) = tab n (fun g => h g + zsum (map (fun b => f b g) bs))).
  { clear. induction bs as [|b bs IH]; intros h; simpl.
    - apply tab_ext. intros. unfold zsum. simpl. lia.
    - rewrite add_counts_tab, IH. apply tab_ext. intros. unfold zsum. simpl. lia. }
  intros b. simpl. rewrite G. apply tab_ext. intros. unfold zsum. reflexivity.
Qed.

Lemma count_concat ls g : count_of (concat ls) g = zsum (map (fun l => count_of l g) ls).
Proof. induction ls as [|l ls IH]; simpl; auto. rewrite count_app, IH. reflexivity. Qed.

Lemma band_rows_map {A B} (f : A -> B) l b : band_rows (map f l) b = map f (band_rows l b).
Proof. unfold band_rows. now rewrite skipn_map, firstn_map. Qed.

Lemma combine_seq {A B} (l : list A) (F : nat -> B) d : forall s,
  combine l (map F (seq s (length l))) = map (fun t => (nth (t - s) l d, F t)) (seq s (length l)).
Proof.
  induction l as [|x l IH]; intros s; simpl; auto. rewrite Nat.sub_diag. f_equal. rewrite IH.
  apply map_ext_in. intros t Ht. apply in_seq in Ht. replace (t - s)%nat with (S (t - S s)) by lia. reflexivity.
Qed.

Lemma nth_column n T (f : nat -> list Z) t : (t < T)%nat ->
  nth t (transpose T (map f (seq 0 n))) [] = map (fun i => nth t (f i) 0) (seq 0 n).
Proof. intros H. unfold transpose. rewrite nth_map_seq by auto. apply column_map. Qed.

Lemma Forall2_concat_perm {A B} (P : A -> list B) l ys : Forall2 (fun x y => Permutation y (P x)) l ys ->
  Permutation (concat ys) (concat (map P l)).
Proof. induction 1; simpl; auto. now apply Permutation_app. Qed.

Theorem bincount_counts ord thr futex keys n junk : 0 < futex -> (0 < n)%nat -> keys <> [] ->
  exists ncount, BinCount ord thr false futex keys (Z.of_nat n) junk = BC_counts ncount /\ histogram (Z.of_nat n) keys ncount.
Proof.
  intros Hf Hn Hk. unfold BinCount. cbn [orb].
  assert (0 < Z.of_nat (length keys)) by (destruct keys; simpl; [congruence|lia]).
  rewrite (proj2 (Z.eqb_neq _ _)), (proj2 (Z.leb_gt _ _)) by lia. cbn [orb].
  destruct (thr && _ && _).
  - unfold InternalBinCount.
    destruct (segment_bins_spec (Z.of_nat (length keys)) futex 31) as (C & _ & _); [lia|lia|].
    set (bands := segment_bins _ _ _) in *. clearbody bands.
    rewrite (each_band_map _ (fun b => tab n (count_of (band_rows keys b)))).
    2: { intros [a b] _. apply bin_count_algo. }
    destruct bands as [|b bands]; [simpl in C; lia|].
    rewrite (total_counts_spec n (fun b => count_of (band_rows keys b))).
    eexists. split; [reflexivity|].
    rewrite (tab_ext n _ (count_of keys)); [apply histogram_tab|].
    intros g Hg. transitivity (count_of (concat (map (band_rows keys) (b :: bands))) g).
    + rewrite count_concat. now rewrite map_map.
    + f_equal. rewrite (band_rows_contiguous _ _ 0) by (auto; lia). reflexivity.
  - rewrite bin_count_all. eexists. split; [reflexivity|]. apply histogram_tab.
Qed.

Section Packed.
  Context (keys : list Z) (n : nat) (bands : list (Z * Z)).
  Context (C : contiguous 0 (Z.of_nat (length keys)) bands).

  Let cb (g : Z) (b : Z * Z) := count_of (band_rows keys b) g.

  Lemma sum_bands g : zsum (map (cb g) bands) = count_of keys g.
  Proof using C.
    unfold cb. rewrite <- (map_map (band_rows keys) (fun l => count_of l g)), <- count_concat.
    now rewrite (band_rows_contiguous _ _ 0) by (auto; lia).
  Qed.

  Definition offsets (t : nat) (g : Z) : Z := before (count_of keys) g + zsum (firstn t (map (cb g) bands)).

  Lemma matrix_cumsum :
    transpose (length bands) (cumsum2 0 (transpose n (map (fun b => tab n (fun g => cb g b)) bands)))
    = map (fun t => tab n (offsets t)) (seq 0 (length bands)).
  Proof using C.
    replace (transpose n (map (fun b => tab n (fun g => cb g b)) bands))
      with (map (fun i => map (cb (Z.of_nat i)) bands) (seq 0 n)).
    2: { unfold transpose. apply map_ext_in. intros i Hi. apply in_seq in Hi. rewrite column_map.
         apply map_ext. intros b. now rewrite nth_tab by lia. }
    rewrite cumsum2_spec. unfold transpose. apply map_ext_in. intros t Ht. apply in_seq in Ht.
    rewrite column_map. unfold tab. apply map_ext_in. intros i Hi. apply in_seq in Hi.
    rewrite Nat.sub_0_r. unfold offsets.
    apply nth_error_nth. rewrite excl_nth by (rewrite map_length; lia). f_equal. f_equal.
    unfold before. rewrite Nat2Z.id. rewrite Z.add_0_l. f_equal. apply map_ext. intros j. apply sum_bands.
  Qed.

  Lemma band_writes t : (t < length bands)%nat ->
    exists ws, MakeiGroup2 keys (nth t bands (0, 0)) (Z.of_nat n) (tab n (offsets t)) = Some ws /\
      Permutation ws (concat (map (fun g => enum 1 (offsets t g) (sel g (band_rows (numbered keys) (nth t bands (0, 0))))) (zseq n))).
  Proof using.
    intros Ht. unfold MakeiGroup2. rewrite (igroup_loop_ops _ _ _ (tab n (fun _ => 0))).
    set (rows := band_rows (numbered keys) (nth t bands (0, 0))).
    destruct (run_ops_spec (map (fun p => Row (fst p) (snd p)) (filter (fun p => (0 <=? snd p) && (snd p <? Z.of_nat n)) rows))
      n (fun _ => 0) (offsets t)) as (ws & -> & P).
    - intros o Ho. apply in_map_iff in Ho as ([i k] & <- & H). apply filter_In in H as [_ H]. simpl in *. lia.
    - exists ws. split; auto. rewrite P. erewrite concat_map_ext_in; [reflexivity|].
      intros g Hg. apply zseq_in in Hg. rewrite ops_of_bin by lia.
      rewrite <- (app_nil_r (map _ _)), places_rows. simpl. apply app_nil_r.
  Qed.

  Lemma bands_of_bin g :
    concat (map (fun t => enum 1 (offsets t g) (sel g (band_rows (numbered keys) (nth t bands (0, 0))))) (seq 0 (length bands)))
    = enum 1 (before (count_of keys) g) (rows_with keys g).
  Proof using C.
    rewrite <- sel_numbered.
    assert (E : numbered keys = concat (map (band_rows (numbered keys)) bands)).
    { rewrite (band_rows_contiguous _ _ 0); auto; [lia|]. unfold numbered. now rewrite enum_length. }
    assert (E2 : sel g (numbered keys) = concat (map (fun b => sel g (band_rows (numbered keys) b)) bands)).
    { rewrite E at 1. now rewrite sel_concat, map_map. }
    rewrite E2, <- enum_consecutive. rewrite map_length.
    f_equal. apply map_ext_in. intros t Ht. apply in_seq in Ht.
    rewrite map_map. unfold offsets.
    replace (nth t (map (fun b => sel g (band_rows (numbered keys) b)) bands) [])
      with (sel g (band_rows (numbered keys) (nth t bands (0, 0)))).
    2: { symmetry. apply nth_error_nth. rewrite nth_error_map. rewrite (nth_error_nth' bands (0, 0)) by lia. reflexivity. }
    f_equal. f_equal. f_equal. f_equal. apply map_ext. intros b. rewrite sel_length.
    unfold cb. f_equal. rewrite <- band_rows_map. f_equal. unfold numbered. now rewrite enum_snd.
  Qed.

  Lemma packed_writes :
    exists wss, each_band (fun x => x)
        (map (fun p => MakeiGroup2 keys (fst p) (Z.of_nat n) (snd p))
           (combine bands (map (fun t => tab n (offsets t)) (seq 0 (length bands))))) = Some wss /\
      Permutation (concat wss) (enum 1 0 (grouped n keys)).
  Proof using C.
    rewrite (combine_seq _ _ (0, 0)), map_map. cbn [fst snd].
    set (ts := seq 0 (length bands)).
    assert (G : exists wss, each_band (fun x => x) (map (fun t => MakeiGroup2 keys (nth (t - 0) bands (0, 0)) (Z.of_nat n) (tab n (offsets t))) ts) = Some wss /\
      Forall2 (fun t ws => Permutation ws (concat (map (fun g => enum 1 (offsets t g) (sel g (band_rows (numbered keys) (nth t bands (0, 0))))) (zseq n)))) ts wss).
    { assert (Hts : forall t, In t ts -> (t < length bands)%nat) by (intros t Ht; apply in_seq in Ht; lia).
      clearbody ts. induction ts as [|t ts IH]; cbn [map each_band].
      - eexists. split; [reflexivity|constructor].
      - rewrite Nat.sub_0_r. destruct (band_writes t (Hts t (or_introl eq_refl))) as (ws & -> & P).
        destruct IH as (wss & -> & F); [intros; apply Hts; simpl; auto|].
        eexists. split; [reflexivity|]. constructor; auto. }
    destruct G as (wss & -> & F). exists wss. split; auto.
    rewrite (Forall2_concat_perm _ _ _ F), concat_swap, <- grouped_enum.
    erewrite concat_map_ext_in; [reflexivity|]. intros g _. apply bands_of_bin.
  Qed.
End Packed.

Theorem bincount_packed ord thr futex keys n junk : fair ord -> 0 < futex -> (0 < n)%nat -> keys <> [] -> length junk = length keys ->
  exists ncount igroup ifirst,
    BinCount ord thr true futex keys (Z.of_nat n) junk = BC_packed ncount igroup ifirst /\
    histogram (Z.of_nat n) keys ncount /\ packed_rows (Z.of_nat n) keys ncount igroup ifirst /\
    (all_in_range (Z.of_nat n) keys -> all_rows keys igroup).
Proof.
  intros Fo Hf Hn Hk Lj. unfold BinCount. cbn [orb].
  assert (0 < Z.of_nat (length keys)) by (destruct keys; simpl; [congruence|lia]).
  rewrite (proj2 (Z.eqb_neq _ _)), (proj2 (Z.leb_gt _ _)) by lia. cbn [orb].
  unfold InternalBinCount.
  destruct (segment_bins_spec (Z.of_nat (length keys)) futex 31 ltac:(lia) Hf) as (C & _ & _).
  set (bands := segment_bins _ _ _) in *. clearbody bands.
  rewrite (each_band_map _ (fun b => tab n (fun g => count_of (band_rows keys b) g))).
  2: { intros [a b] _. apply bin_count_algo. }
  rewrite Nat2Z.id, map_length, matrix_cumsum by auto.
  destruct (packed_writes keys n bands C) as (wss & -> & P).
  assert (P2 : Permutation (ord _ (concat wss)) (enum 1 0 (grouped n keys))) by (rewrite <- P; first [apply Fo | symmetry; apply Fo]).
  rewrite (writes_enum_prefix _ _ _ P2) by (rewrite Lj; apply grouped_le).
  assert (Lg : length (grouped n keys ++ skipn (length (grouped n keys)) junk) = length keys).
  { rewrite app_length, skipn_length. pose proof (grouped_le n keys). lia. }
  destruct bands as [|b bands]; [simpl in C; lia|].
  assert (E1 : total_counts (map (fun b => tab n (fun g => count_of (band_rows keys b) g)) (b :: bands)) = tab n (count_of keys)).
  { rewrite (total_counts_spec n (fun b => count_of (band_rows keys b))). apply tab_ext. intros g Hg. apply (sum_bands keys (b :: bands) C). }
  assert (E2 : nth 0 (map (fun t => tab n (offsets keys (b :: bands) t)) (seq 0 (length (b :: bands)))) [] = tab n (before (count_of keys))).
  { cbn [length seq map nth]. apply tab_ext. intros g Hg. unfold offsets. cbn [firstn]. unfold zsum. simpl. lia. }
  rewrite E1, E2. eexists _, _, _. split; [reflexivity|]. split; [apply histogram_tab|]. split; [eapply packed_grouped; eauto|].
  intros Ha. unfold all_rows. assert (Pg := grouped_perm n keys Ha).
  assert (length (grouped n keys) = length keys) by (rewrite (Permutation_length Pg); unfold zseq; now rewrite map_length, seq_length).
  rewrite skipn_all2 by lia. rewrite app_nil_r. exact Pg.
Qed.
