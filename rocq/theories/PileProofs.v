(** Moving a section to another place. *)
From Verif Require Import Base SdsModel SdsSpec SdsProofs Sds2Proofs Sds3Proofs Sds4Proofs Sds5Proofs Sds6Proofs Sds7Proofs PileModel PileSpec.
Local Open Scope Z_scope.
Local Opaque le.

(** ** Headers *)
Lemma length_add_to : forall h i v, length (add_to h i v) = length h.
Proof. intros. unfold add_to. apply length_upd. Qed.
Lemma length_bump : forall fo h i, length (bump fo h i) = length h.
Proof. intros. unfold bump. destruct (fld h i =? 0); [reflexivity | apply length_add_to]. Qed.
Lemma length_fix : forall fo h, length (fix_fields fo h) = length h.
Proof. intros. unfold fix_fields. cbn [fold_left]. rewrite length_add_to, length_upd, !length_bump. reflexivity. Qed.
Lemma fld_bump_other : forall fo h i j, j <> i -> fld (bump fo h j) i = fld h i.
Proof. intros. unfold bump. destruct (fld h j =? 0); [reflexivity|]. unfold add_to. now apply fld_upd_neq. Qed.
Lemma fld_bump_same : forall fo h i, (i < length h)%nat -> fld h i <> 0 -> fld (bump fo h i) i = fld h i + fo.
Proof. intros fo h i L N. unfold bump. apply Z.eqb_neq in N. rewrite N. unfold add_to. now apply fld_upd_eq. Qed.
Definition moved : list nat := [NameBlockOffset; MetaBlockOffset; ArrayBlockOffset; ArrayFirstOffset; BandBlockOffset].
Lemma fix_other : forall fo h i, ~ In i (SectionBlockOffset :: FileOffset :: moved) -> fld (fix_fields fo h) i = fld h i.
Proof.
  intros fo h i N. unfold fix_fields, moved in *. cbn [fold_left In] in *. unfold add_to.
  rewrite !fld_upd_neq by (intro; apply N; auto 9). rewrite !fld_bump_other by (intro; apply N; auto 9). reflexivity.
Qed.
Lemma fix_moved : forall fo h i, length h = 33%nat -> In i [NameBlockOffset; MetaBlockOffset; ArrayBlockOffset] -> fld h i <> 0 -> fld (fix_fields fo h) i = fld h i + fo.
Proof.
  intros fo h i L IN NZ. unfold fix_fields. cbn [fold_left In] in *. unfold add_to.
  destruct IN as [<- | [<- | [<- | []]]]; rewrite !fld_upd_neq by discriminate.
  - rewrite !fld_bump_other by discriminate. apply fld_bump_same; [rewrite L; unfold NameBlockOffset; lia | assumption].
  - rewrite !(fld_bump_other fo _ MetaBlockOffset) by discriminate. rewrite fld_bump_same; rewrite ?length_bump, ?fld_bump_other by discriminate; [reflexivity | rewrite L; unfold MetaBlockOffset; lia | assumption].
  - rewrite !(fld_bump_other fo _ ArrayBlockOffset) by discriminate. rewrite fld_bump_same; rewrite ?length_bump, ?fld_bump_other by discriminate; [reflexivity | rewrite L; unfold ArrayBlockOffset; lia | assumption].
Qed.
Lemma fix_section : forall fo h, length h = 33%nat -> fld (fix_fields fo h) SectionBlockOffset = 0.
Proof.
  intros fo h L. unfold fix_fields, add_to. rewrite fld_upd_neq by discriminate. apply fld_upd_eq. cbn [fold_left]. rewrite !length_bump, L. unfold SectionBlockOffset. lia.
Qed.
Lemma fix_header_ok : forall fo h, length h = 33%nat -> fix_header fo (enc_header h) = enc_header (fix_fields fo (norm h)).
Proof.
  intros fo h L. unfold fix_header, enc_header. rewrite norm_header by assumption. f_equal.
  apply skipn_app_len. rewrite length_enc by (rewrite L; reflexivity). reflexivity.
Qed.

Lemma fix_header_section : forall fo hb, fld (dec header_layout (fix_header fo hb)) SectionBlockOffset = 0.
Proof.
  intros. unfold fix_header. set (h := dec header_layout hb). assert (L : length (fix_fields fo h) = 33%nat) by (rewrite length_fix; unfold h; rewrite length_dec; reflexivity).
  rewrite norm_header by exact L. rewrite fld_norm by (exact L || (unfold SectionBlockOffset; lia)).
  rewrite fix_section by (unfold h; rewrite length_dec; reflexivity). reflexivity.
Qed.

(** ** Array blocks *)
Lemma add_fill : forall a o c bc bs fo, add_to (fill_block a o c bc bs) ArrayDataOffset fo = fill_block a (o + fo) c bc bs.
Proof.
  intros. unfold add_to. change ArrayDataOffset with (18 + 0)%nat. rewrite nth_fill_tail. unfold fill_block, fld. cbn [nth].
  assert (L : length (five (a_dims a)) = 5%nat) by apply length_five. assert (M : length (five (a_strides a)) = 5%nat) by apply length_five.
  destruct (five (a_dims a)) as [|d0 [|d1 [|d2 [|d3 [|d4 [|? ?]]]]]]; try discriminate L.
  destruct (five (a_strides a)) as [|s0 [|s1 [|s2 [|s3 [|s4 [|? ?]]]]]]; try discriminate M. reflexivity.
Qed.
Lemma fix_blocks_ok : forall fo bs, Forall (fun b => length b = 23%nat /\ forall rest, dec block_layout (enc block_layout b ++ rest) = b) bs ->
  fix_blocks fo (length bs) (concat (map (enc block_layout) bs)) = concat (map (enc block_layout) (map (fun b => add_to b ArrayDataOffset fo) bs)).
Proof.
  intros fo bs F. induction F as [|b bs [L R] F IH]; [reflexivity|]. cbn [length map concat fix_blocks].
  assert (LE : length (enc block_layout b) = 128%nat) by (rewrite length_enc by (rewrite L; reflexivity); apply width_block).
  rewrite (skipn_app_len _ _ 128) by (symmetry; exact LE). rewrite IH. f_equal. f_equal. f_equal.
  rewrite firstn_app, LE, Nat.sub_diag, firstn_O. rewrite firstn_all2 by lia. apply R.
Qed.
Lemma read_chunk_has : forall f o x, has f o x -> read_chunk f o (len x) = x.
Proof.
  intros f o x H. pose proof (pread_has f o x H) as P. unfold pread in P. unfold read_chunk. unfold len at 1. rewrite Nat2Z.id.
  destruct x as [|b x]; [reflexivity|]. set (y := b :: x) in *. destruct (len y =? 0) eqn:Z0; [apply Z.eqb_eq in Z0; unfold y, len in Z0; cbn in Z0; lia|].
  destruct ((0 <=? o) && (0 <? len y) && (o + len y <=? len f)); [|discriminate P]. apply some_inj in P. unfold len in P at 1. rewrite Nat2Z.id in P. rewrite P.
  unfold len. rewrite Nat2Z.id, P, Nat.sub_diag. apply app_nil_r.
Qed.

Definition block_bytes (f : file) (h : list Z) : list Z := read_chunk f (fld h ArrayBlockOffset) (fld h ArrayBlockSize).
Definition block_fixed (fo : Z) (f : file) (h : list Z) : list Z := fix_blocks fo (Z.to_nat (fld h ArraysWritten)) (block_bytes f h).

Lemma blocks_facts : forall k w h ps f off hi fo, saveable k w -> describes k w h ps -> stored f off hi h ps -> 0 <= off ->
  exists blocks, In (fld h ArrayBlockOffset, concat (map (enc block_layout) blocks)) ps /\ length blocks = length (w_arrays w)
   /\ len (concat (map (enc block_layout) blocks)) = fld h ArrayBlockSize
   /\ (forall t a, nth_error (w_arrays w) t = Some a ->
        exists o bytes count bsize, pack_array k (w_comp w) (band_used w) a = (bytes, count, bsize)
          /\ nth_error blocks t = Some (fill_block a o (len bytes) count bsize) /\ In (o, bytes) ps /\ o < 2 ^ 63 /\ len bytes < 2 ^ 62 /\ fld h ArrayBlockOffset + fld h ArrayBlockSize <= o)
   /\ block_fixed fo f h = concat (map (enc block_layout) (map (fun b => add_to b ArrayDataOffset fo) blocks))
   /\ len (block_fixed fo f h) = fld h ArrayBlockSize.
Proof.
  intros k w h ps f off hi fo SV D [HH ST] O0. destruct (d_blocks _ _ _ _ D) as [blocks [B1 [B2 B3]]].
  assert (PR : forall o x, In (o, x) ps -> has f o x /\ off + 512 <= o) by (intros o x IN; apply (proj1 (Forall_forall _ _) ST) in IN; cbn [fst snd] in IN; tauto).
  assert (BL : Forall (fun b => length b = 23%nat /\ forall rest, dec block_layout (enc block_layout b ++ rest) = b) blocks).
  { apply Forall_forall. intros b IN. apply In_nth_error in IN. destruct IN as [t E].
    assert (T : (t < length (w_arrays w))%nat) by (rewrite <- B2; apply nth_error_Some; congruence).
    destruct (nth_error (w_arrays w) t) as [a|] eqn:EA; [|apply nth_error_None in EA; lia].
    destruct (B3 t a EA) as [o [bytes [cnt [bs [_ [E' [IN [OS [LS _]]]]]]]]]. rewrite E in E'. injection E' as ->. split; [apply length_fill_block|]. intro rest.
    assert (B62 : 2 ^ 62 < 2 ^ 63) by reflexivity. pose proof (len_nonneg bytes). destruct (PR _ _ IN).
    apply block_round_trip; [|lia|lia]. exact (proj1 (Forall_forall _ _) (sv_arrays k w SV) a (nth_error_In _ _ EA)). }
  assert (BL2 : Forall (fun b => length b = 23%nat) blocks) by (eapply Forall_impl; [|exact BL]; cbn beta; tauto).
  assert (LB : len (concat (map (enc block_layout) blocks)) = fld h ArrayBlockSize) by (rewrite (d_absize _ _ _ _ D), len_blocks, B2 by assumption; lia).
  exists blocks. split; [exact B1|]. split; [exact B2|]. split; [exact LB|]. split; [exact B3|].
  assert (E : block_fixed fo f h = concat (map (enc block_layout) (map (fun b => add_to b ArrayDataOffset fo) blocks))).
  { unfold block_fixed, block_bytes. rewrite (d_written _ _ _ _ D), Nat2Z.id, <- B2, <- LB. rewrite read_chunk_has by apply (PR _ _ B1). now apply fix_blocks_ok. }
  split; [exact E|]. rewrite E, len_blocks; [rewrite map_length, (d_absize _ _ _ _ D), B2; lia|].
  apply Forall_map. eapply Forall_impl; [|exact BL2]. cbn beta. intros b L. rewrite length_add_to. exact L.
Qed.

Lemma section_moved : forall k w h ps f off hi fo g, saveable k w -> describes k w h ps -> stored f off hi h ps -> 0 <= off -> 0 <= fo -> fo + hi < 2 ^ 63 ->
  has g (fo + off) (enc_header (fix_fields fo (norm h))) -> has g (fo + fld h ArrayBlockOffset) (block_fixed fo f h) ->
  (forall o x, has f o x -> off + 512 <= o -> o + len x <= hi -> (o + len x <= fld h ArrayBlockOffset \/ fld h ArrayBlockOffset + fld h ArrayBlockSize <= o) -> has g (fo + o) x) ->
  exists ps', stored g (fo + off) (fo + hi) (fix_fields fo (norm h)) ps' /\ describes k w (fix_fields fo (norm h)) ps'.
Proof.
  intros k w h ps f off hi fo g SV D ST O0 F0 SM HH HB KEEP.
  destruct (blocks_facts k w h ps f off hi fo SV D ST O0) as [blocks [B1 [B2 [B3 [B4 [B5 B6]]]]]].
  pose proof D as D'. destruct D'. destruct ST as [_ ST].
  assert (PR : forall o x, In (o, x) ps -> has f o x /\ off + 512 <= o /\ o + len x <= hi) by (intros o x IN; apply (proj1 (Forall_forall _ _) ST) in IN; exact IN).
  set (ab := fld h ArrayBlockOffset) in *. set (as_ := fld h ArrayBlockSize) in *.
  set (away := fun p : piece => (fst p + len (snd p) <=? ab) || (ab + as_ <=? fst p)).
  set (ps' := (fo + ab, block_fixed fo f h) :: map (fun p => (fo + fst p, snd p)) (filter away ps)).
  assert (NF : forall i, In i (hMagic :: hVersionHigh :: used_fields) -> fld (norm h) i = fld h i) by (intros i IN; eapply fld_norm_used; eassumption).
  assert (NO : forall i, In i [hMagic; hVersionHigh; NameBlockSize; NameBlockCount; TotalMetaCompressedSize; TotalMetaUncompressedSize; ArrayBlockSize; ArraysWritten] -> fld (fix_fields fo (norm h)) i = fld h i).
  { intros i IN. rewrite fix_other, NF.
    - reflexivity.
    - unfold used_fields. cbn [In] in *. tauto.
    - intro X. unfold moved in X. cbn [In] in IN, X. repeat (destruct IN as [<- | IN]; [repeat (destruct X as [X|X]; [discriminate X|]); destruct X|]). destruct IN. }
  destruct d_meta as [meta [M1 [M2 M3]]]. destruct d_order as [O1 O2].
  destruct (PR _ _ d_names) as [_ [PN1 PN2]]. destruct (PR _ _ M2) as [_ [PM1 PM2]]. destruct (PR _ _ B1) as [_ [PB1 PB2]]. rewrite B3 in PB2. fold ab in PB1, PB2.
  pose proof (len_nonneg (BuildListInfo (w_names w))) as LN. pose proof (len_nonneg meta) as LM. pose proof (len_nonneg (block_fixed fo f h)) as LB.
  assert (MV : forall i, In i [NameBlockOffset; MetaBlockOffset; ArrayBlockOffset] -> fld (fix_fields fo (norm h)) i = fo + fld h i).
  { intros i IN. assert (U : In i (hMagic :: hVersionHigh :: used_fields)) by (unfold used_fields; cbn [In] in *; tauto).
    assert (NZ : fld h i <> 0) by (cbn [In] in IN; destruct IN as [<- | [<- | [<- | []]]]; [lia | lia | fold ab; lia]).
    rewrite fix_moved; [rewrite (NF i U); lia | apply length_norm | exact IN | rewrite (NF i U); exact NZ]. }
  assert (AW : forall o x, In (o, x) ps -> o + len x <= ab \/ ab + as_ <= o -> In (fo + o, x) ps').
  { intros o x IN A. right. apply in_map_iff. exists (o, x). split; [reflexivity|]. apply filter_In. split; [exact IN|]. unfold away. cbn [fst snd].
    destruct A as [A|A]; [rewrite (proj2 (Z.leb_le _ _) A); reflexivity | rewrite (proj2 (Z.leb_le _ _) A); apply orb_true_r]. }
  exists ps'. split.
  - split; [exact HH|]. constructor.
    + cbn [fst snd]. rewrite B6. split; [exact HB|]. fold as_. lia.
    + apply Forall_forall. intros [o x] IN. apply in_map_iff in IN. destruct IN as [[o' x'] [E IN]]. cbn [fst snd] in E. injection E as <- <-.
      apply filter_In in IN. destruct IN as [IN A]. unfold away in A. cbn [fst snd] in *. apply orb_prop in A.
      assert (A' : o' + len x' <= ab \/ ab + as_ <= o') by (destruct A as [A|A]; apply Z.leb_le in A; auto). destruct (PR _ _ IN) as [P1 [P2 P3]].
      split; [apply KEEP; assumption | lia].
  - constructor.
    + rewrite length_fix. apply length_norm.
    + rewrite NO by (cbn [In]; tauto). assumption.
    + rewrite NO by (cbn [In]; tauto). assumption.
    + apply Forall_forall. intros i IN. pose proof (proj1 (Forall_forall _ _) d_range i IN) as RI. cbn beta in RI. unfold used_fields in IN. cbn [In] in IN.
      destruct IN as [<- | [<- | [<- | [<- | [<- | [<- | [<- | [<- | [<- | []]]]]]]]]]; try (rewrite NO by (cbn [In]; tauto); exact RI); rewrite MV by (cbn [In]; tauto); try lia.
    + rewrite NO by (cbn [In]; tauto). assumption.
    + rewrite NO by (cbn [In]; tauto). assumption.
    + rewrite MV by (cbn [In]; tauto). apply AW; [assumption|]. rewrite d_nsize in O1. fold ab in O1. left; lia.
    + exists meta. rewrite (NO TotalMetaCompressedSize), (MV MetaBlockOffset) by (cbn [In]; tauto). split; [assumption|]. split; [|assumption]. apply AW; [assumption|]. fold ab in O2. left; lia.
    + rewrite NO by (cbn [In]; tauto). assumption.
    + rewrite NO by (cbn [In]; tauto). assumption.
    + rewrite NO by (cbn [In]; tauto). assumption.
    + rewrite (NO ArrayBlockSize), (MV ArrayBlockOffset) by (cbn [In]; tauto). fold ab as_. exists (map (fun b => add_to b ArrayDataOffset fo) blocks). split; [left; rewrite B5; reflexivity|]. split; [rewrite map_length; assumption|].
      intros t a EA. destruct (B4 t a EA) as [o [bytes [cnt [bz [P1 [P2 [P3 [P4 [P5 P6]]]]]]]]]. exists (fo + o), bytes, cnt, bz. split; [assumption|].
      destruct (PR _ _ P3) as [Q1 [Q2 Q3]]. pose proof (len_nonneg bytes).
      split; [rewrite nth_error_map, P2; cbn [option_map]; rewrite add_fill; f_equal; f_equal; lia|]. split; [apply AW; [assumption|]; right; assumption|]. repeat split; lia.
    + rewrite (NO NameBlockSize), (NO TotalMetaCompressedSize), (MV NameBlockOffset), (MV MetaBlockOffset), (MV ArrayBlockOffset) by (cbn [In]; tauto). fold ab in O1, O2 |- *. lia.
Qed.
