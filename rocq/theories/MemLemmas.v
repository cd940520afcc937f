From Verif Require Import Base SchedModel SchedSpec SchedProofs.
From Verif Require Export Mem.

Lemma zwr_some {A} (l : list A) i x : (0 <= i < Z.of_nat (length l))%Z -> zwr l i x = Some (upd l (Z.to_nat i) x).
Proof. intros H. unfold zwr. rewrite (proj2 (Z.leb_le _ _)), (proj2 (Z.ltb_lt _ _)) by lia. reflexivity. Qed.

Lemma zwr_inv {A} (l : list A) i x l' : zwr l i x = Some l' ->
  (0 <= i < Z.of_nat (length l))%Z /\ l' = upd l (Z.to_nat i) x.
Proof. unfold zwr. destruct (Z.leb_spec 0 i), (Z.ltb_spec i (Z.of_nat (length l))); simpl; intros E; inversion E. split; auto; lia. Qed.

Lemma zrd_some {A} (l : list A) i : (0 <= i)%Z -> zrd l i = nth_error l (Z.to_nat i).
Proof. intros H. unfold zrd. now rewrite (proj2 (Z.leb_le _ _)). Qed.

Lemma zrd_inv {A} (l : list A) i x : zrd l i = Some x -> (0 <= i < Z.of_nat (length l))%Z /\ nth_error l (Z.to_nat i) = Some x.
Proof. unfold zrd. destruct (Z.leb_spec 0 i); [|discriminate]. intros E. split; auto.
  apply nth_error_Some_lt in E. lia. Qed.

Lemma writes_total {A} (ws : list (Z * A)) : forall out,
  (forall i x, In (i, x) ws -> (0 <= i < Z.of_nat (length out))%Z) ->
  exists out', writes ws out = Some out' /\ length out' = length out.
Proof.
  induction ws as [|[i x] ws IH]; simpl; intros out H; [eauto|].
  rewrite zwr_some by (eapply H; eauto).
  destruct (IH (upd out (Z.to_nat i) x)) as (o & E & L).
  - intros j y Hj. rewrite length_upd. eauto.
  - exists o. rewrite length_upd in L. auto.
Qed.

Lemma writes_length {A} (ws : list (Z * A)) : forall out out', writes ws out = Some out' -> length out' = length out.
Proof.
  induction ws as [|[i x] ws IH]; simpl; intros out out' H; [congruence|].
  destruct (zwr out i x) as [o|] eqn:E; [|discriminate]. apply zwr_inv in E as [_ ->].
  apply IH in H. now rewrite length_upd in H.
Qed.

(** Reading back after writes to distinct places. *)
Lemma writes_read {A} (ws : list (Z * A)) : forall out out',
  NoDup (map fst ws) -> writes ws out = Some out' ->
  forall i, nth_error out' i =
    match find (fun w => (fst w =? Z.of_nat i)%Z) ws with Some w => Some (snd w) | None => nth_error out i end.
Proof.
  induction ws as [|[i x] ws IH]; simpl; intros out out' ND H j; [congruence|].
  destruct (zwr out i x) as [o|] eqn:E; [|discriminate]. apply zwr_inv in E as [Hi ->].
  inversion ND as [|? ? Hn ND']; subst. rewrite (IH _ _ ND' H).
  destruct (Z.eqb_spec i (Z.of_nat j)) as [Heq|Hne].
  - destruct (find _ ws) as [[k y]|] eqn:F.
    + exfalso. apply find_some in F as [F1 F2]. simpl in F2. apply Z.eqb_eq in F2. apply Hn.
      apply in_map_iff. exists (k, y). simpl. split; auto; lia.
    + simpl. subst i. rewrite Nat2Z.id. apply nth_error_upd_eq. lia.
  - destruct (find _ ws) eqn:F; auto. apply nth_error_upd_neq. lia.
Qed.

Lemma enum_length {A} s (l : list A) : forall o, length (enum s o l) = length l.
Proof. induction l; simpl; intros; auto. Qed.

Lemma enum_app {A} s (l1 l2 : list A) : forall o, enum s o (l1 ++ l2) = enum s o l1 ++ enum s (o + s * Z.of_nat (length l1)) l2.
Proof.
  induction l1 as [|x l1 IH]; simpl; intros o.
  - f_equal. lia.
  - rewrite IH. f_equal. f_equal. f_equal. lia.
Qed.

Lemma enum_in {A} s (l : list A) i x : forall o, In (i, x) (enum s o l) <->
  exists k, nth_error l k = Some x /\ i = (o + s * Z.of_nat k)%Z.
Proof.
  induction l as [|y l IH]; simpl; intros o.
  - split; [tauto|]. intros (k & H & _). now destruct k.
  - rewrite IH. split.
    + intros [H|(k & H & ->)].
      * inversion H; subst. exists 0. split; auto; lia.
      * exists (S k). split; auto; lia.
    + intros ([|k] & H & ->).
      * left. simpl in H. inversion H; subst. f_equal; lia.
      * right. exists k. split; auto; lia.
Qed.

Lemma enum_fst_in {A} s (l : list A) i : forall o, In i (map fst (enum s o l)) ->
  exists k, k < length l /\ i = (o + s * Z.of_nat k)%Z.
Proof.
  intros o H. apply in_map_iff in H as ([j x] & <- & H). apply enum_in in H as (k & H & ->).
  exists k. split; auto. eapply nth_error_Some_lt; eauto.
Qed.

Lemma enum_nodup {A} s (l : list A) : (0 < s)%Z -> forall o, NoDup (map fst (enum s o l)).
Proof.
  intros Hs. induction l as [|x l IH]; simpl; intros o; constructor; auto.
  intros H. apply enum_fst_in in H as (k & _ & H). nia.
Qed.

(** The main lemma: writes that are, in some order, exactly the elements of [spec] at their places. *)
Lemma writes_enum {A} (ws : list (Z * A)) spec out :
  Permutation ws (enum 1 0 spec) -> length out = length spec -> writes ws out = Some spec.
Proof.
  intros P L.
  destruct (writes_total ws out) as (o & E & Lo).
  { intros i x H. apply (Permutation_in _ P) in H. apply enum_in in H as (k & H & ->).
    apply nth_error_Some_lt in H. lia. }
  rewrite E. f_equal. apply list_ext. intros i.
  assert (ND : NoDup (map fst ws)).
  { eapply Permutation_NoDup; [symmetry; apply Permutation_map; exact P|]. apply enum_nodup; lia. }
  rewrite (writes_read ws out o ND E).
  destruct (nth_error spec i) as [x|] eqn:Hs.
  - assert (Hin : In (Z.of_nat i, x) ws).
    { apply (Permutation_in _ (Permutation_sym P)). apply enum_in. exists i. split; auto; lia. }
    destruct (find _ ws) as [[k y]|] eqn:F.
    + apply find_some in F as [F1 F2]. simpl in *. apply Z.eqb_eq in F2. subst k.
      apply (Permutation_in _ P) in F1. apply enum_in in F1 as (k & F & Hk).
      assert (k = i) by lia. subst k. congruence.
    + eapply find_none in F; [|exact Hin]. simpl in F. now rewrite Z.eqb_refl in F.
  - apply nth_error_None in Hs.
    destruct (find _ ws) as [[k y]|] eqn:F.
    + exfalso. apply find_some in F as [F1 F2]. simpl in *. apply Z.eqb_eq in F2. subst k.
      apply (Permutation_in _ P) in F1. apply enum_in in F1 as (k & F & Hk).
      apply nth_error_Some_lt in F. lia.
    + apply nth_error_None. lia.
Qed.

(** Same with byte offsets. *)
Lemma item_writes_writes {A} isz (ws : list (Z * A)) : (0 < isz)%Z -> forall out,
  item_writes isz (map (fun w => (fst w * isz, snd w)%Z) ws) out = writes ws out.
Proof.
  intros Hs. induction ws as [|[i x] ws IH]; simpl; intros out; auto.
  rewrite Z.mod_mul by lia. simpl. rewrite Z.div_mul by lia.
  destruct (zwr out i x); auto.
Qed.

Lemma enum_scale {A} s (l : list A) : forall o,
  enum s (o * s) l = map (fun w => (fst w * s, snd w)%Z) (enum 1 o l).
Proof.
  induction l as [|x l IH]; simpl; intros o; auto.
  rewrite <- IH. f_equal. f_equal. lia.
Qed.

Lemma item_writes_enum {A} isz (ws : list (Z * A)) spec out :
  (0 < isz)%Z -> Permutation ws (enum isz 0 spec) -> length out = length spec -> item_writes isz ws out = Some spec.
Proof.
  intros Hs P L.
  change 0%Z with (0 * isz)%Z in P. rewrite enum_scale in P.
  apply Permutation_map_inv in P as (ws' & -> & P).
  rewrite item_writes_writes by auto. apply writes_enum; auto. now apply Permutation_sym.
Qed.

(** ** Chunks *)

Lemma seq_concat_chunks n c : forall b0, concat (map (fun b => seq (b * c) c) (seq b0 n)) = seq (b0 * c) (n * c).
Proof.
  induction n as [|n IH]; intros b0; simpl; auto.
  rewrite IH. rewrite seq_app. f_equal. f_equal. lia.
Qed.

Lemma chunks_seq c len : 0 < c -> concat (map (fun p => seq (fst p) (snd p)) (chunks c len)) = seq 0 len.
Proof.
  intros Hc. unfold chunks. rewrite map_map. simpl.
  destruct (Nat.eq_dec len 0) as [->|Hl].
  { rewrite Nat.div_small by lia. reflexivity. }
  set (n := (len + (c - 1)) / c).
  assert (Hn : n = S ((len - 1) / c)).
  { unfold n. replace (len + (c - 1)) with ((len - 1) + 1 * c) by lia. rewrite Nat.div_add by lia. lia. }
  rewrite Hn. set (m := (len - 1) / c).
  assert (Hm1 : m * c <= len - 1) by (unfold m; rewrite Nat.mul_comm; apply Nat.mul_div_le; lia).
  assert (Hm2 : len - 1 < S m * c) by (unfold m; rewrite Nat.mul_comm; apply Nat.mul_succ_div_gt; lia).
  rewrite seq_S, map_app, concat_app. cbn [map concat]. rewrite app_nil_r, Nat.add_0_l.
  rewrite (map_ext_in (fun x => seq (x * c) (Nat.min c (len - x * c))) (fun x => seq (x * c) c)).
  - rewrite (seq_concat_chunks m c 0). rewrite Nat.min_r by nia.
    rewrite Nat.mul_0_l. replace (m * c) with (0 + m * c) at 2 by lia. rewrite <- seq_app. f_equal. lia.
  - intros b Hb. apply in_seq in Hb. rewrite Nat.min_l; auto. nia.
Qed.

Lemma chunks_map {A} (f : nat -> list A) c len : 0 < c ->
  concat (map (fun p => concat (map f (seq (fst p) (snd p)))) (chunks c len)) = concat (map f (seq 0 len)).
Proof.
  intros Hc. rewrite <- (chunks_seq c len Hc). rewrite concat_map, map_map.
  induction (chunks c len) as [|p l IH]; simpl; auto. rewrite concat_app, IH. reflexivity.
Qed.

Lemma chunks_nth c len b s l : nth_error (chunks c len) b = Some (s, l) ->
  s = b * c /\ l = Nat.min c (len - b * c) /\ b < (len + (c - 1)) / c.
Proof.
  unfold chunks. rewrite nth_error_map.
  destruct (nth_error (seq 0 _) b) eqn:E; [|discriminate]. simpl.
  assert (Hb := nth_error_Some_lt _ _ _ E). rewrite seq_length in Hb.
  rewrite nth_error_seq in E. apply Nat.ltb_lt in Hb as Hb'. rewrite Hb' in E. simpl in E. inversion E; subst.
  intros H; inversion H; subst. auto.
Qed.

Lemma chunks_in c len s l : 0 < c -> In (s, l) (chunks c len) -> 0 < l <= c /\ s + l <= len /\ s mod c = 0.
Proof.
  intros Hc H. apply In_nth_error in H as (b & H). apply chunks_nth in H as (-> & -> & Hb).
  assert (b * c < len).
  { assert (c * ((len + (c - 1)) / c) <= len + (c - 1)) by (apply Nat.mul_div_le; lia). nia. }
  rewrite Nat.mod_mul by lia. lia.
Qed.

Lemma chunks_length c len : length (chunks c len) = (len + (c - 1)) / c.
Proof. unfold chunks. now rewrite map_length, seq_length. Qed.

(** The chunks are the blocks of the thread pool's work item. *)
Lemma chunks_are_blocks call len w : (0 <= len)%Z ->
  map (fun p => (Z.of_nat (fst p), Z.of_nat (snd p))) (chunks (Z.to_nat WORK_ITEM_CHUNK) (Z.to_nat len)) =
  blocks_of call (mkReq len w WORK_ITEM_CHUNK true) (seq 0 (block_last (mkReq len w WORK_ITEM_CHUNK true))).
Proof.
  intros Hl. assert (HB := chunk_last len w Hl). unfold chunk_req in HB.
  set (r := mkReq len w WORK_ITEM_CHUNK true) in *.
  unfold chunks, blocks_of. rewrite map_map.
  set (c := Z.to_nat WORK_ITEM_CHUNK).
  assert (Hc : Z.of_nat c = WORK_ITEM_CHUNK) by (unfold c; rewrite Z2Nat.id; [auto|unfold WORK_ITEM_CHUNK; lia]).
  assert (Hpos : (0 < WORK_ITEM_CHUNK)%Z) by reflexivity.
  clearbody c.
  assert (E : (Z.to_nat len + (c - 1)) / c = block_last r).
  { apply Nat2Z.inj. rewrite HB. rewrite Nat2Z.inj_div, Nat2Z.inj_add, Nat2Z.inj_sub by lia.
    rewrite Z2Nat.id by auto. now rewrite Hc. }
  rewrite E. apply map_ext_in. intros b Hb. apply in_seq in Hb. cbn [fst snd].
  destruct (block_len_bounds call len w b Hl) as [H1 H2]; [unfold chunk_req; fold r; simpl; lia|].
  unfold chunk_req in *. fold r in H1, H2.
  unfold block_start in *. change (itBlockSize (fill call r)) with WORK_ITEM_CHUNK in *.
  rewrite <- Hc in *. f_equal; lia.
Qed.

Lemma excl_length l : forall a, length (excl a l) = length l.
Proof. induction l; simpl; intros; auto. Qed.

Lemma excl_nth l : forall a b, b < length l -> nth_error (excl a l) b = Some (a + zsum (firstn b l))%Z.
Proof.
  induction l as [|x l IH]; simpl; intros a b H; [lia|].
  destruct b as [|b]; simpl.
  - f_equal. unfold zsum. simpl. lia.
  - rewrite IH by lia. f_equal. unfold zsum. simpl. lia.
Qed.

(** Pieces placed one after another. *)
Lemma enum_excl {A} s (ls : list (list A)) : forall o,
  concat (map (fun p => enum s (o + s * snd p) (fst p)) (combine ls (excl 0 (map (fun l => Z.of_nat (length l)) ls))))
  = enum s o (concat ls).
Proof.
  assert (G : forall ls o a, concat (map (fun p => enum s (o + s * snd p) (fst p)) (combine ls (excl a (map (fun l : list A => Z.of_nat (length l)) ls))))
     = enum s (o + s * a) (concat ls)).
  { induction ls0 as [|l ls0 IH]; simpl; intros o a; auto.
    rewrite IH, enum_app. f_equal. f_equal. lia. }
  intros o. rewrite G. f_equal. lia.
Qed.

Lemma excl_ext l : forall l' a, length l = length l' ->
  (forall i, S i < length l -> nth_error l i = nth_error l' i) -> excl a l = excl a l'.
Proof.
  induction l as [|x l IH]; intros [|y l'] a L H; simpl in *; try lia; auto.
  destruct l as [|x2 l2]; destruct l' as [|y2 l2']; simpl in L; try lia; auto.
  assert (E := H 0%nat ltac:(simpl; lia)). simpl in E. inversion E; subst. f_equal.
  apply IH; auto. intros i Hi. apply (H (S i)). simpl in *; lia.
Qed.

Lemma wrap_id w v : (0 < w)%Z -> (- 2 ^ (w - 1) <= v < 2 ^ (w - 1))%Z -> wrap w v = v.
Proof.
  intros Hw Hv. unfold wrap.
  assert (E : (2 ^ w = 2 * 2 ^ (w - 1))%Z) by (rewrite <- Z.pow_succ_r by lia; f_equal; lia).
  set (h := (2 ^ (w - 1))%Z) in *. rewrite E.
  destruct (Z.ltb_spec v 0) as [Hn|Hn].
  - replace (v mod (2 * h))%Z with (v + 2 * h)%Z.
    + destruct (Z.ltb_spec (v + 2 * h) h); lia.
    + apply (Z.mod_unique_pos _ _ (-1)); lia.
  - rewrite Z.mod_small by lia. destruct (Z.ltb_spec v h); lia.
Qed.

Lemma wrap_unsigned w v : (0 < w)%Z -> (2 ^ (w - 1) <= v < 2 ^ w)%Z -> wrap w v = (v - 2 ^ w)%Z.
Proof.
  intros Hw Hv. unfold wrap. rewrite Z.mod_small.
  - destruct (Z.ltb_spec v (2 ^ (w - 1))); lia.
  - split; [|lia]. assert (0 < 2 ^ (w - 1))%Z by (apply Z.pow_pos_nonneg; lia). lia.
Qed.
