(** An array that was packed is unpacked again. *)
From Verif Require Import Base SdsModel SdsSpec SdsProofs.
Local Open Scope Z_scope.

Local Opaque le.
Section Codec.
Context (k : codec) (OK : codec_ok k).

Lemma squeeze_ok : forall avail p,
  (squeeze k avail p = p) \/ (len (squeeze k avail p) < len p /\ decomp k (squeeze k avail p) = Some p).
Proof.
  intros. unfold squeeze. destruct (comp k avail p) as [y|] eqn:E; [|now left].
  destruct (len y <? len p) eqn:L; [|now left]. right. apply Z.ltb_lt in L. split; [assumption|]. eapply (proj1 (OK _ _ _ E)).
Qed.
Lemma squeeze_le : forall avail p, len (squeeze k avail p) <= len p.
Proof. intros. destruct (squeeze_ok avail p) as [-> | [L _]]; lia. Qed.

(** bands *)
Lemma concat_pieces : forall n bpb data, (0 < n)%nat -> concat (pieces n bpb data) = data.
Proof.
  induction n; intros bpb data N; [lia|]. destruct n; [cbn; now rewrite app_nil_r|].
  change (pieces (S (S n)) bpb data) with (firstn bpb data :: pieces (S n) bpb (skipn bpb data)). cbn [concat].
  rewrite IHn by lia. apply firstn_skipn.
Qed.
Lemma length_pieces : forall n bpb data, length (pieces n bpb data) = n.
Proof. induction n; intros; [reflexivity|]. destruct n; [reflexivity|]. change (S (length (pieces (S n) bpb (skipn bpb data))) = S (S n)). now rewrite IHn. Qed.

Lemma pack_bands_cons : forall avail pos p ps, pack_bands k avail pos (p :: ps) =
  let c := squeeze k avail p in
  (pos + len c :: fst (pack_bands k (avail - len c) (pos + len c) ps), c ++ snd (pack_bands k (avail - len c) (pos + len c) ps)).
Proof. intros. cbn [pack_bands]. destruct (pack_bands k _ _ ps). reflexivity. Qed.
Lemma length_ends : forall ps avail pos, length (fst (pack_bands k avail pos ps)) = length ps.
Proof. induction ps; intros; [reflexivity|]. rewrite pack_bands_cons. cbn [fst length]. now rewrite IHps. Qed.
Lemma ends_range : forall ps avail pos, 0 <= pos ->
  Forall (fun e => 0 <= e <= pos + len (snd (pack_bands k avail pos ps))) (fst (pack_bands k avail pos ps)).
Proof.
  induction ps as [|p ps IH]; intros avail pos P; [constructor|]. rewrite pack_bands_cons. cbn [fst snd]. rewrite len_app.
  pose proof (len_nonneg (squeeze k avail p)). constructor.
  - pose proof (len_nonneg (snd (pack_bands k (avail - len (squeeze k avail p)) (pos + len (squeeze k avail p)) ps))). lia.
  - eapply Forall_impl; [|apply IH; lia]. cbn beta. intros e E. lia.
Qed.
Lemma dec_les : forall vs rest, Forall (fun v => 0 <= v < 2 ^ 63) vs ->
  dec (repeat (8%nat, true) (length vs)) (concat (map (le 8) vs) ++ rest) = vs.
Proof.
  intros vs rest F. assert (E : concat (map (le 8) vs) = enc (repeat (8%nat, true) (length vs)) vs).
  { clear F. induction vs as [|v vs IH]; [reflexivity|]. cbn [map concat length repeat enc]. now rewrite IH. }
  rewrite E. apply dec_enc_id. clear E. induction F; cbn [length repeat]; constructor; [|assumption].
  unfold conv. cbn [fst snd]. apply sgn8. lia.
Qed.
Lemma len_les : forall vs, len (concat (map (le 8) vs)) = 8 * Z.of_nat (length vs).
Proof. induction vs; [reflexivity|]. cbn [map concat length]. rewrite len_app, IHvs. unfold len at 1. rewrite length_le. lia. Qed.

(* all bands but the last have bandbytes bytes *)
Fixpoint even (bandbytes : Z) (ps : list (list Z)) : Prop :=
  match ps with [] => True | [_] => True | p :: r => len p = bandbytes /\ even bandbytes r end.
Lemma even_cons : forall b p q r, even b (p :: q :: r) = (len p = b /\ even b (q :: r)).
Proof. reflexivity. Qed.
Lemma pieces_even : forall n bpb data, Z.of_nat n * Z.of_nat bpb < len data + Z.of_nat bpb \/ bpb = O -> even (Z.of_nat bpb) (pieces n bpb data).
Proof.
  induction n; intros bpb data H; [exact I|]. destruct n; [exact I|].
  change (pieces (S (S n)) bpb data) with (firstn bpb data :: pieces (S n) bpb (skipn bpb data)).
  destruct (pieces (S n) bpb (skipn bpb data)) eqn:E.
  - exact I.
  - rewrite even_cons. rewrite <- E. split.
    + unfold len in *. rewrite firstn_length. destruct H as [H | ->]; [nia | lia].
    + apply IHn. destruct H as [H | ->]; [left | now right]. unfold len in *. rewrite skipn_length. nia.
Qed.

Lemma read_bands_ok : forall f ps avail pos off usize done bandbytes,
  has f off (snd (pack_bands k avail pos ps)) -> even bandbytes ps -> len done + len (concat ps) = usize ->
  read_bands k f (fst (pack_bands k avail pos ps)) pos off bandbytes usize done = Some (done ++ concat ps).
Proof.
  induction ps as [|p ps IH]; intros avail pos off usize done bandbytes H EV U.
  - cbn. now rewrite app_nil_r.
  - rewrite pack_bands_cons in *. cbn [fst snd read_bands concat] in *.
    set (c := squeeze k avail p) in *. replace (pos + len c - pos) with (len c) by lia.
    apply has_app in H. destruct H as [Hc Hr]. rewrite (pread_has _ _ _ Hc).
    set (ends := fst (pack_bands k (avail - len c) (pos + len c) ps)) in *.
    assert (UL : match ends with [] => usize - len done | _ :: _ => bandbytes end = len p).
    { assert (LE : length ends = length ps) by apply length_ends. rewrite len_app in U. destruct ps as [|q ps'].
      - destruct ends; [|discriminate LE]. cbn in U. lia.
      - destruct ends; [discriminate LE|]. destruct EV as [EV _]. lia. }
    rewrite UL.
    assert (X : (if len c =? len p then Some c else match decomp k c with Some x => if len x =? len p then Some x else None | None => None end) = Some p).
    { destruct (squeeze_ok avail p) as [E | [L D]]; fold c in E || fold c in L, D.
      - rewrite E. now rewrite Z.eqb_refl.
      - destruct (len c =? len p) eqn:Q; [apply Z.eqb_eq in Q; lia|]. rewrite D. now rewrite Z.eqb_refl. }
    rewrite X. replace (done ++ p ++ concat ps) with ((done ++ p) ++ concat ps) by now rewrite app_assoc.
    apply IH; [assumption | | rewrite !len_app in *; lia].
    destruct ps; [exact I|]. now destruct EV.
Qed.

(** ** The whole array *)
Lemma product_cons : forall d l, product (d :: l) = d * product l.
Proof.
  intros. unfold product. cbn [fold_left]. assert (G : forall l a, fold_left Z.mul l a = a * fold_left Z.mul l 1).
  { clear. induction l as [|x l IH]; intro a; cbn [fold_left]; [lia|]. rewrite IH, (IH (1 * x)). lia. }
  rewrite G. lia.
Qed.
Lemma product_nonneg : forall l, Forall (fun d => 0 <= d < 2 ^ 63) l -> 0 <= product l.
Proof. induction 1; [unfold product; cbn; lia|]. rewrite product_cons. nia. Qed.

Lemma length_five : forall l, length (five l) = 5%nat.
Proof. intros. unfold five. rewrite firstn_length, app_length, repeat_length. unfold MAX_DIMS. lia. Qed.
Lemma firstn_five : forall l, (length l <= 5)%nat -> firstn (length l) (five l) = l.
Proof.
  intros. unfold five. rewrite firstn_firstn. unfold MAX_DIMS. rewrite Nat.min_l by lia. rewrite firstn_app, Nat.sub_diag, firstn_O, firstn_all. apply app_nil_r.
Qed.
Lemma Forall_five : forall (P : Z -> Prop) l, Forall P l -> P 0 -> Forall P (five l).
Proof.
  intros P l F Z0. unfold five. apply Forall_forall. intros x IN.
  assert (IN' : In x (l ++ repeat 0 MAX_DIMS)) by (rewrite <- (firstn_skipn MAX_DIMS (l ++ repeat 0 MAX_DIMS)); apply in_or_app; now left).
  apply in_app_or in IN'. destruct IN' as [I1 | I2]; [now apply (proj1 (Forall_forall _ _) F)|].
  apply repeat_spec in I2. now subst.
Qed.
Lemma length_fill_block : forall a o c bc bs, length (fill_block a o c bc bs) = 23%nat.
Proof. intros. unfold fill_block. rewrite !app_length, !length_five. reflexivity. Qed.

(* the block as it is read back *)
Lemma block_round_trip : forall a o c bc bs rest, array_ok a -> 0 <= o < 2 ^ 63 -> 0 <= c < 2 ^ 63 ->
  dec block_layout (enc block_layout (fill_block a o c bc bs) ++ rest) = fill_block a o c bc bs.
Proof.
  intros a o c bc bs rest A O C. apply dec_enc_id. unfold block_layout, fill_block.
  destruct A as [nd st di sp it dt fl da sm]. pose proof (len_nonneg (a_data a)) as LN.
  apply Forall2_app.
  { assert (ND : 0 <= Z.of_nat (Nat.min (length (a_dims a)) MAX_DIMS) < 128) by (unfold MAX_DIMS; lia).
    repeat constructor; unfold conv; cbn [fst snd].
    - change (sgn 1 (sgn 1 (a_dtype a)) = sgn 1 (a_dtype a)). apply sgn_idem.
    - apply sgn1. lia.
    - apply sgn4. lia.
    - apply sgn4. lia. }
  assert (G8 : forall l n, length l = n -> Forall (fun d => - 2 ^ 63 <= d < 2 ^ 63) l -> Forall2 (fun l v => conv l v = v) (repeat (8%nat, true) n) l).
  { clear. intros l n <-. induction 1; cbn [length repeat]; constructor; [|assumption]. unfold conv. cbn [fst snd]. now apply sgn8. }
  change (repeat (8%nat, true) 13) with (repeat (8%nat, true) 5 ++ repeat (8%nat, true) 5 ++ repeat (8%nat, true) 3).
  rewrite <- !app_assoc. apply Forall2_app; [|apply Forall2_app].
  - apply G8; [apply length_five|]. apply Forall_five; [|lia]. eapply Forall_impl; [|exact di]. cbn beta. intros; lia.
  - apply G8; [apply length_five|]. apply Forall_five; [assumption | lia].
  - repeat constructor; unfold conv; cbn [fst snd].
    + apply sgn8. lia.
    + apply sgn8. lia.
    + apply sgn8. lia.
    + apply sgn_idem.
    + apply sgn_idem.
Qed.

Lemma nth_fill_tail : forall a o c bc bs j, fld (fill_block a o c bc bs) (18 + j) = fld [o; c; len (a_data a); sgn 4 bc; sgn 4 bs] j.
Proof.
  intros. unfold fill_block, fld.
  assert (L : length (five (a_dims a)) = 5%nat) by apply length_five. assert (M : length (five (a_strides a)) = 5%nat) by apply length_five.
  destruct (five (a_dims a)) as [|d0 [|d1 [|d2 [|d3 [|d4 [|? ?]]]]]]; try discriminate L.
  destruct (five (a_strides a)) as [|s0 [|s1 [|s2 [|s3 [|s4 [|? ?]]]]]]; try discriminate M. reflexivity.
Qed.
Lemma fill_dims : forall a o c bc bs, firstn MAX_DIMS (skipn bDimensions (fill_block a o c bc bs)) = five (a_dims a).
Proof.
  intros. unfold fill_block, bDimensions. cbn [skipn app]. rewrite firstn_app, length_five. change (MAX_DIMS - 5)%nat with 0%nat.
  rewrite firstn_O, app_nil_r. apply firstn_all2. now rewrite length_five.
Qed.
Lemma fill_strides : forall a o c bc bs, firstn MAX_DIMS (skipn bStrides (fill_block a o c bc bs)) = five (a_strides a).
Proof.
  intros. unfold fill_block, bStrides. assert (L : length (five (a_dims a)) = 5%nat) by apply length_five.
  destruct (five (a_dims a)) as [|d0 [|d1 [|d2 [|d3 [|d4 [|? ?]]]]]]; try discriminate L. cbn [skipn app].
  rewrite firstn_app, length_five. change (MAX_DIMS - 5)%nat with 0%nat.
  rewrite firstn_O, app_nil_r. apply firstn_all2. now rewrite length_five.
Qed.

Definition band_small (compType band : Z) (a : array) : Prop := 0 < band -> compType = 1 -> 10000 <= band < 2 ^ 31 /\ fld (a_dims a) 0 < 2 ^ 44.

Lemma product_div : forall a, array_ok a -> 0 < fld (a_dims a) 0 -> product (a_dims a) / fld (a_dims a) 0 * fld (a_dims a) 0 = product (a_dims a) /\ 0 <= product (a_dims a) / fld (a_dims a) 0.
Proof.
  intros a A D. pose proof (ao_dims a A) as F. destruct (a_dims a) as [|d l]; [cbn in D; lia|]. cbn [fld nth] in *.
  rewrite product_cons in *. inversion F; subst. rewrite (Z.mul_comm d), Z.div_mul by lia. split; [reflexivity|]. now apply product_nonneg.
Qed.

Lemma read_block_ok : forall f a compType band bytes count bsize off,
  array_ok a -> band_small compType band a -> pack_array k compType band a = (bytes, count, bsize) ->
  ~ (0 < count /\ len bytes = len (a_data a)) -> has f off bytes -> len bytes < 2 ^ 62 ->
  read_block k f (fill_block a off (len bytes) count bsize) (a_dims a) = Some (a_data a).
Proof.
  intros f a ct band bytes count bsize off A BS P NC H SM. unfold read_block.
  change ArrayCompressedSize with (18 + 1)%nat. change ArrayUncompressedSize with (18 + 2)%nat. change ArrayDataOffset with (18 + 0)%nat.
  change ArrayBandCount with (18 + 3)%nat. change ArrayBandSize with (18 + 4)%nat. rewrite !nth_fill_tail. cbn [fld nth].
  change (fld (fill_block a off (len bytes) count bsize) bItemSize) with (a_item a).
  pose proof (len_nonneg (a_data a)) as LN. pose proof (len_nonneg bytes) as LB.
  pose proof (pread_has _ _ _ H) as PR.
  unfold pack_array in P. destruct (ct =? 1) eqn:CT.
  2:{ injection P as <- <- <-. now rewrite Z.eqb_refl. }
  apply Z.eqb_eq in CT.
  (* the case without bands *)
  assert (PLAIN : forall cnt, squeeze k (bound k (len (a_data a))) (a_data a) = bytes -> cnt <= 0 ->
    (if len bytes =? len (a_data a) then pread f off (len bytes)
     else if 0 <? sgn 4 cnt then
       do hd <- pread f off (sgn 4 cnt * 8);
       read_bands k f (dec (repeat (8%nat, true) (Z.to_nat (sgn 4 cnt))) hd) 0 (off + sgn 4 cnt * 8) (sgn 4 bsize * GetBytesPerRow (a_dims a) (a_item a)) (len (a_data a)) []
     else do bs <- pread f off (len bytes); do x <- decomp k bs; if len x =? len (a_data a) then Some x else None) = Some (a_data a) \/ cnt < 0).
  { intros cnt E C. destruct (Z_lt_le_dec cnt 0) as [N|N]; [now right|]. left. assert (cnt = 0) as -> by lia. change (sgn 4 0) with 0. change (0 <? 0) with false.
    rewrite PR. destruct (squeeze_ok (bound k (len (a_data a))) (a_data a)) as [Q | [L D]]; rewrite E in *.
    - rewrite Q. now rewrite Z.eqb_refl.
    - destruct (len bytes =? len (a_data a)) eqn:X; [apply Z.eqb_eq in X; lia|]. rewrite D. now rewrite Z.eqb_refl. }
  unfold GetBytesPerBand in P. destruct (0 <? band) eqn:B0.
  2:{ change (0 <? 0) with false in P. cbv iota beta zeta in P. injection P as E <- <-. destruct (PLAIN 0 E ltac:(lia)) as [R | R]; [exact R | lia]. }
  apply Z.ltb_lt in B0. destruct (BS B0 CT) as [BS1 BS2].
  destruct (0 <? fld (a_dims a) 0) eqn:D0.
  2:{ change (0 <? 0) with false in P. cbv iota beta zeta in P. injection P as E <- <-. destruct (PLAIN 0 E ltac:(lia)) as [R | R]; [exact R | lia]. }
  clear PLAIN. apply Z.ltb_lt in D0. destruct (product_div a A D0) as [PD PN]. set (q := product (a_dims a) / fld (a_dims a) 0) in *.
  set (dim0 := fld (a_dims a) 0) in *. set (cnt := (dim0 + (band - 1)) / band) in *. set (bpb := q * band * a_item a) in *.
  assert (C0 : 0 < cnt) by (unfold cnt; apply Z.div_str_pos; lia).
  assert (C1 : cnt < 2 ^ 31).
  { unfold cnt. apply Z.div_lt_upper_bound; [lia|]. change (2 ^ 31) with 2147483648 in *. change (2 ^ 44) with 17592186044416 in *. nia. }
  rewrite (proj2 (Z.ltb_lt 0 cnt) C0) in P.
  destruct (pack_bands k (bound k (len (a_data a))) 0 (pieces (Z.to_nat cnt) (Z.to_nat bpb) (a_data a))) as [ends data] eqn:PB.
  injection P as <- <- <-. set (ps := pieces (Z.to_nat cnt) (Z.to_nat bpb) (a_data a)) in *. set (av := bound k (len (a_data a))) in *.
  assert (E1 : ends = fst (pack_bands k av 0 ps)) by (rewrite PB; reflexivity). assert (E2 : data = snd (pack_bands k av 0 ps)) by (rewrite PB; reflexivity).
  assert (LE : length ends = Z.to_nat cnt) by (rewrite E1, length_ends; apply length_pieces).
  destruct (len (concat (map (le 8) ends) ++ data) =? len (a_data a)) eqn:CO; [apply Z.eqb_eq in CO; exfalso; apply NC; split; assumption|].
  rewrite (sgn4 cnt) by lia. rewrite (proj2 (Z.ltb_lt 0 cnt) C0).
  apply has_app in H. destruct H as [H1 H2]. rewrite len_les, LE in H2. replace (8 * Z.of_nat (Z.to_nat cnt)) with (cnt * 8) in H2 by lia.
  replace (cnt * 8) with (len (concat (map (le 8) ends))) at 1 by (rewrite len_les, LE; lia). rewrite (pread_has _ _ _ H1).
  rewrite <- LE. rewrite <- (app_nil_r (concat (map (le 8) ends))). rewrite len_app in SM.
  assert (ER : Forall (fun e => 0 <= e <= 0 + len data) ends) by (rewrite E1, E2; apply ends_range; lia).
  rewrite dec_les.
  2:{ eapply Forall_impl; [|exact ER]. cbn beta. intros e He. pose proof (len_nonneg (concat (map (le 8) ends))). change (2 ^ 62) with 4611686018427387904 in SM. change (2 ^ 63) with 9223372036854775808. lia. }
  assert (RB : sgn 4 (if bpb =? 0 then 0 else band) * GetBytesPerRow (a_dims a) (a_item a) = bpb).
  { unfold GetBytesPerRow. fold dim0. rewrite (proj2 (Z.ltb_lt 0 dim0) D0). fold q. destruct (bpb =? 0) eqn:Q0.
    - apply Z.eqb_eq in Q0. rewrite sgn4 by lia. lia.
    - rewrite sgn4 by lia. unfold bpb. ring. }
  cbn [andb]. rewrite RB. rewrite E1. rewrite E2 in H2. rewrite (read_bands_ok f ps av 0 (off + cnt * 8) (len (a_data a)) [] bpb); [| assumption | |].
  - cbn [app]. f_equal. unfold ps. apply concat_pieces. lia.
  - assert (BP : 0 <= bpb). { unfold bpb. pose proof (ao_item a A). nia. }
    rewrite <- (Z2Nat.id bpb BP). unfold ps. apply pieces_even.
    destruct (Z.eq_dec bpb 0) as [Q0 | NZ]; [right; now rewrite Q0 | left]. rewrite !Z2Nat.id by lia.
    rewrite (ao_data a A), <- PD. fold dim0. pose proof (ao_item a A).
    assert (cnt * band <= dim0 + (band - 1)). { unfold cnt. rewrite Z.mul_comm. apply Z.mul_div_le. lia. }
    unfold bpb. assert (0 < q * a_item a) by (unfold bpb in NZ; nia).
    replace (cnt * (q * band * a_item a)) with ((cnt * band) * (q * a_item a)) by ring.
    replace (q * dim0 * a_item a + q * band * a_item a) with ((dim0 + band) * (q * a_item a)) by ring. nia.
  - cbn. unfold ps. rewrite concat_pieces by lia. reflexivity.
Qed.

Lemma land_flags : forall v, 0 <= v < 0x8000 -> Z.land v 0x8000 = 0.
Proof.
  intros v H. apply Z.bits_inj'. intros n N. rewrite Z.land_spec, Z.bits_0. change 0x8000 with (2 ^ 15).
  rewrite Z.pow2_bits_eqb by lia. destruct (15 =? n) eqn:E; [|apply andb_false_r]. apply Z.eqb_eq in E. subst n.
  rewrite andb_true_r. destruct (Z.eq_dec v 0) as [-> | NZ]; [apply Z.bits_0|]. apply Z.bits_above_log2; [lia|].
  apply Z.log2_lt_pow2; [lia|]. change (2 ^ 15) with 0x8000. lia.
Qed.
Lemma same_type_fixup : forall d item, same_type item d (FixupDType d item) /\ (d <> 7 -> d <> 8 -> FixupDType d item = d).
Proof.
  intros d item. unfold same_type, FixupDType. destruct (d =? 7) eqn:A; [apply Z.eqb_eq in A; subst d | apply Z.eqb_neq in A].
  - destruct (item =? 4) eqn:B; [apply Z.eqb_eq in B | apply Z.eqb_neq in B]; cbn; split; try lia; right; left; lia.
  - destruct (d =? 8) eqn:C; [apply Z.eqb_eq in C; subst d | apply Z.eqb_neq in C].
    + destruct (item =? 4) eqn:B; [apply Z.eqb_eq in B | apply Z.eqb_neq in B]; split; try lia; right; right; lia.
    + split; [now left | reflexivity].
Qed.

Lemma read_array_ok : forall f a compType band bytes count bsize off rest,
  array_ok a -> band_small compType band a -> pack_array k compType band a = (bytes, count, bsize) ->
  ~ (0 < count /\ len bytes = len (a_data a)) -> has f off bytes -> len bytes < 2 ^ 62 -> off < 2 ^ 63 ->
  restored a (read_array k f (dec block_layout (enc block_layout (fill_block a off (len bytes) count bsize) ++ rest))).
Proof.
  intros f a ct band bytes count bsize off rest A BS P NC H SM OS.
  pose proof (len_nonneg bytes) as LB. rewrite block_round_trip; [| assumption | destruct H; lia | lia].
  unfold read_array. rewrite fill_dims, fill_strides.
  pose proof (ao_ndim a A) as ND. pose proof (ao_strides a A) as NS.
  change (fld (fill_block a off (len bytes) count bsize) bNDim) with (Z.of_nat (Nat.min (length (a_dims a)) MAX_DIMS)).
  change (fld (fill_block a off (len bytes) count bsize) bItemSize) with (a_item a).
  change (fld (fill_block a off (len bytes) count bsize) bFlags) with (a_flags a).
  change (fld (fill_block a off (len bytes) count bsize) bDType) with (sgn 1 (a_dtype a)).
  rewrite Nat.min_l by (unfold MAX_DIMS; lia). rewrite Nat2Z.id, firstn_five by lia. rewrite <- NS, firstn_five by lia. rewrite NS.
  destruct (Z.of_nat (length (a_dims a)) =? 0) eqn:Z0; [apply Z.eqb_eq in Z0; lia|].
  rewrite (land_flags _ (ao_flags a A)). cbn [Z.eqb negb].
  rewrite (read_block_ok f a ct band bytes count bsize off A BS P NC H SM).
  rewrite (ao_data a A), Z.ltb_irrefl. rewrite sgn1 by (pose proof (ao_dtype a A); lia).
  cbn [restored a_dtype a_item a_dims a_strides a_flags a_data]. destruct (same_type_fixup (a_dtype a) (a_item a)) as [S1 S2]. auto 10.
Qed.
End Codec.
