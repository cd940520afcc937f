(** Saving arrays, then reading them through a mask. *)
From Verif Require Import Base MaskModel MaskSpec MaskProofs.
From Verif Require Import SdsModel SdsSpec SdsProofs Sds2Proofs Sds3Proofs Sds4Proofs Sds5Proofs Sds6Proofs Sds7Proofs SieveModel SieveSpec SieveProofs Sieve2Proofs Sieve3Proofs.
Local Open Scope Z_scope.
Local Opaque le.

Lemma pack_count : forall k ct band a bytes count bs, 0 <= fld (a_dims a) 0 -> pack_array k ct band a = (bytes, count, bs) -> 0 <= count.
Proof.
  intros k ct band a bytes count bs D0 P. unfold pack_array in P. destruct (ct =? 1); [|injection P as <- <- <-; lia].
  unfold GetBytesPerBand in P. destruct (Z.ltb_spec 0 band) as [B | B]; [destruct (Z.ltb_spec 0 (fld (a_dims a) 0)) as [D | D]|].
  - destruct (Z.ltb_spec 0 ((fld (a_dims a) 0 + (band - 1)) / band)); [destruct (pack_bands _ _ _ _)|]; injection P as <- <- <-; [lia|]. apply Z.div_pos; lia.
  - change (0 <? 0) with false in P. injection P as <- <- <-. lia.
  - change (0 <? 0) with false in P. injection P as <- <- <-. lia.
Qed.

(* section_blocks: the blocks of a section, and that none of them is ambiguous *)
Lemma section_unambiguous : forall k f off hi w h ps, codec_ok k -> saveable k w -> describes k w h ps -> stored f off hi h ps -> 0 <= off -> unambiguous f off.
Proof.
  intros k f off hi w h ps OK SV D [HH ST] O0. pose proof D as D'. destruct D'.
  assert (PR : forall o x, In (o, x) ps -> has f o x /\ 0 <= o) by (intros o x IN; apply (proj1 (Forall_forall _ _) ST) in IN; cbn [fst snd] in IN; split; [exact (proj1 IN) | lia]).
  assert (NF : forall i, In i used_fields -> fld (norm h) i = fld h i).
  { intros i IN. apply fld_norm8; [exact d_len | | now apply (proj1 (Forall_forall _ _) d_range)].
    unfold used_fields in IN. cbn [In] in IN. repeat (destruct IN as [<- | IN]; [reflexivity|]). destruct IN. }
  intros h' names bs b OS IN BC. unfold open_section in OS. rewrite (read_header f off h d_len d_magic d_version HH) in OS.
  destruct (if fld (norm h) NameBlockSize =? 0 then _ else _); [|discriminate OS]. destruct (if (off =? 0) && _ then _ else _); [|discriminate OS].
  rewrite (NF ArrayBlockSize), (NF ArrayBlockOffset) in OS by (unfold used_fields; cbn [In]; auto 12).
  destruct d_blocks as [blocks [B1 [B2 B3]]].
  assert (BL : Forall (fun b => length b = 23%nat) blocks).
  { apply Forall_forall. intros b' IN'. apply In_nth_error in IN'. destruct IN' as [t E].
    assert (T : (t < length (w_arrays w))%nat) by (rewrite <- B2; apply nth_error_Some; congruence).
    destruct (nth_error (w_arrays w) t) as [a|] eqn:EA; [|apply nth_error_None in EA; lia].
    destruct (B3 t a EA) as [o [bytes [cnt [bz [_ [E' _]]]]]]. rewrite E in E'. injection E' as ->. apply length_fill_block. }
  assert (PB : pread f (fld h ArrayBlockOffset) (fld h ArrayBlockSize) = Some (concat (map (enc block_layout) blocks))).
  { replace (fld h ArrayBlockSize) with (SdsModel.len (concat (map (enc block_layout) blocks))) by (rewrite d_absize, len_blocks, B2 by assumption; lia).
    exact (pread_has _ _ _ (proj1 (PR _ _ B1))). }
  rewrite PB in OS. injection OS as _ _ OS. rewrite d_absize in OS. unfold BLOCK in OS. rewrite Z.div_mul in OS by lia. rewrite Nat2Z.id, <- B2, blocks_of_ok in OS by assumption.
  subst bs. apply in_map_iff in IN as [b0 [EB IN]]. apply In_nth_error in IN as [t E].
  assert (T : (t < length (w_arrays w))%nat) by (rewrite <- B2; apply nth_error_Some; congruence).
  destruct (nth_error (w_arrays w) t) as [a|] eqn:EA; [|apply nth_error_None in EA; lia].
  destruct (B3 t a EA) as (o & bytes & cnt & bz & P & E' & INP & OL & LL & _). rewrite E in E'. injection E' as ->.
  assert (INA : In a (w_arrays w)) by (eapply nth_error_In; eassumption).
  pose proof (proj1 (Forall_forall _ _) (sv_arrays k w SV) a INA) as AO. pose proof (proj1 (Forall_forall _ _) (sv_collision k w SV) a INA) as NC. unfold collision in NC. rewrite P in NC.
  assert (D0 : 0 <= fld (a_dims a) 0) by (pose proof (ao_dims a AO) as F; destruct (a_dims a) as [|d r]; [cbn; lia|]; inversion F; subst; cbn [fld nth]; lia).
  pose proof (pack_count _ _ _ _ _ _ _ D0 P) as CP.
  rewrite block_round_trip in EB; [| assumption | destruct (PR _ _ INP); lia | pose proof (len_nonneg bytes); lia]. subst b.
  change ArrayCompressedSize with (18 + 1)%nat. change ArrayUncompressedSize with (18 + 2)%nat. change ArrayBandCount with (18 + 3)%nat in BC. rewrite nth_fill_tail in BC. rewrite !nth_fill_tail. cbn [fld nth] in *.
  intro EQ. apply NC. split; [|assumption]. destruct (Z.eq_dec cnt 0) as [-> | NZ]; [exfalso; change (sgn 4 0) with 0 in BC; lia | lia].
Qed.

Lemma saved_type : forall k w es f f', codec_ok k -> saveable k w -> write_file k w None es f = Some f' -> SdsModel.len f' < 2 ^ 62 -> - 32768 <= w_ftype w < 32768 ->
  file_type f' 0 = w_ftype w /\ unambiguous f' 0.
Proof.
  intros k w es f f' OK SV E SM FT. pose proof E as E0.
  destruct (fresh_inv k w None es f f' OK SV I I E SM) as (doff & dres & h0 & ps0 & hi0 & INV).
  split; [|refine (section_unambiguous k f' 0 hi0 w h0 ps0 OK SV (i_de _ _ _ _ _ _ _ _ _ _ INV) (i_st _ _ _ _ _ _ _ _ _ _ INV) _); lia].
  destruct (call_facts k w None es f f' OK E) as [f0 [off [meta [f1 [h [offs [s [MO [H1 [H2 [H3 [O0 [OM [I [DN [EN [FO LO]]]]]]]]]]]]]]]]].
  assert (OZ : off = 0). { destruct H3 as [[_ [-> _]] | [name [X _]]]; [reflexivity | discriminate X]. } clear H3. rewrite OZ in *. clear OZ off.
  unfold EndCompressedFile in EN. rewrite FO in EN. cbv iota in EN. apply some_inj in EN.
  pose proof (wi_hlen _ _ _ _ _ _ I) as HL.
  destruct (section_written k w 0 meta f0 f1 h offs s (s_file s) (upd (s_head s) TimeStampUTCNanos (w_time w)) OK SV MO O0 OM H1 H2 I DN) as [W1 [W2 [W3 [W4 [ps [W5 W6]]]]]].
  + intros o x H _ _. exact H.
  + lia.
  + rewrite length_upd. exact HL.
  + intros i NL. apply fld_upd_neq. intros <-. apply NL. unfold late. auto.
  + rewrite EN. exact SM.
  + rewrite EN in W5. destruct W5 as [HH _]. unfold file_type. rewrite (read_header f' 0 _ (d_len _ _ _ _ W6) (d_magic _ _ _ _ W6) (d_version _ _ _ _ W6) HH).
    rewrite fld_norm by (first [exact (d_len _ _ _ _ W6) | unfold FileType; lia]). rewrite fld_upd_neq by discriminate. rewrite (wi_head _ _ _ _ _ _ I) by discriminate. rewrite H1.
    change (conv (nth FileType header_layout (0%nat, false)) (sgn 2 (w_ftype w)) = w_ftype w). change (sgn 2 (sgn 2 (w_ftype w)) = w_ftype w). rewrite sgn_idem.
    unfold sgn. change (256 ^ Z.of_nat 2) with 65536. change (65536 / 2) with 32768. destruct (Z.ltb_spec (w_ftype w mod 65536) 32768) as [L | L].
    * destruct (Z_lt_le_dec (w_ftype w) 0); [|apply Z.mod_small; lia]. rewrite <- (Z_mod_plus_full (w_ftype w) 1), Z.mod_small in L by lia. lia.
    * destruct (Z_lt_le_dec (w_ftype w) 0); [|rewrite Z.mod_small in L by lia; lia]. rewrite <- (Z_mod_plus_full (w_ftype w) 1), Z.mod_small by lia. lia.
Qed.

Section Saved.
Context (k : codec) (part : Z -> list Z -> list Z) (PK : part_ok k part) (OK : codec_ok k).
Context (v : view Z) (MO : mask_ok v) (CT : contiguous v).

Lemma restored_inv : forall a g, restored a g -> exists a', g = GArray a' /\ (same_type (a_item a) (a_dtype a) (a_dtype a') /\ (a_dtype a <> 7 -> a_dtype a <> 8 -> a_dtype a' = a_dtype a)
              /\ a_item a' = a_item a /\ a_dims a' = a_dims a /\ a_strides a' = a_strides a /\ a_data a' = a_data a).
Proof. intros a [| | |a'] R; try contradiction. exists a'. split; [reflexivity|]. destruct R as (R1 & R2 & R3 & R4 & R5 & _ & R7). auto 10. Qed.

Lemma nth_restored : forall w c t a, restores w c -> nth_error (w_arrays w) t = Some a -> exists g, nth_error (c_arrays c) t = Some g /\ restored a g.
Proof.
  intros w c t a (_ & _ & F). revert t. induction F as [|x y l l' H F IH]; intros [|t] E; try discriminate E; [injection E as ->; exists y; split; [reflexivity | assumption] | apply IH; exact E].
Qed.
Lemma nth_restored_back : forall w c t g, restores w c -> nth_error (c_arrays c) t = Some g -> exists a, nth_error (w_arrays w) t = Some a /\ restored a g.
Proof.
  intros w c t a (_ & _ & F). revert t. induction F as [|x y l l' H F IH]; intros [|t] E; try discriminate E; [injection E as ->; exists x; split; [reflexivity | assumption] | apply IH; exact E].
Qed.

Lemma columns_saved : forall w c P (Q : array -> Prop), saveable k w -> restores w c -> saved_columns w P ->
  (forall t a a', nth_error (w_arrays w) t = Some a -> nth_error (c_arrays c) t = Some (GArray a') -> a_dims a' = a_dims a -> a_data a' = a_data a -> a_item a' = a_item a -> P a -> Q a') ->
  columns_ok v (w_ftype w) c Q.
Proof.
  intros w c P Q SV RS SC PQ t g N C. destruct (nth_restored_back w c t g RS N) as [a [NA R]]. destruct (restored_inv a g R) as (a' & -> & R1 & R2 & R3 & R4 & R5 & R7).
  exists a'. split; [reflexivity|]. pose proof (proj1 (Forall_forall _ _) (sv_arrays k w SV) a (nth_error_In _ _ NA)) as AO.
  destruct (SC t a NA) as [CO PA]; [unfold column_of; destruct RS as [<- _]; exact C|].
  split; [rewrite R4; pose proof (ao_ndim a AO); intro X; rewrite X in *; cbn in *; lia|].
  split; [rewrite R4; eapply Forall_impl; [|exact (ao_dims a AO)]; cbn beta; lia|]. split; [rewrite R3; pose proof (ao_item a AO); lia|].
  split; [unfold c_order in *; now rewrite R3, R4, R5|]. exact (PQ t a a' NA N R4 R7 R3 PA).
Qed.

Lemma came_back_of : forall w c gs t a g, restores w c -> all_masked v (w_ftype w) c gs -> nth_error (w_arrays w) t = Some a -> nth_error gs t = Some g -> came_back v w t a g.
Proof.
  intros w c gs t a g RS [_ AM] NA NG. destruct (nth_restored w c t a RS NA) as [g0 [N R]]. destruct (restored_inv a g0 R) as (a' & -> & RR).
  destruct (AM t _ g N NG) as [M1 M2]. exists a'. split; [exact RR|]. unfold column_of. destruct RS as [<- _]. split; [intros C; now apply M1 | intros C; now apply M2].
Qed.

Theorem saved_masked : forall w es f f', saveable k w -> write_file k w None es f = Some f' -> SdsModel.len f' < 2 ^ 62 -> - 32768 <= w_ftype w < 32768 ->
  saved_columns w (fun a => 0 < SdsModel.len (a_data a) /\ fits v (rows a)) -> (exists i, is_true v i = true) ->
  exists gs, decompress_file k part f' 0 v = Arrays gs /\ length gs = length (w_arrays w) /\
    forall t a g, nth_error (w_arrays w) t = Some a -> nth_error gs t = Some g -> came_back v w t a g.
Proof.
  intros w es f f' SV E SM FT SC T. destruct (saved_type k w es f f' OK SV E SM FT) as [TY UA].
  destruct (sections_read k w None es [] f f' OK SV I I (Forall_nil _)) as [c [offs [R1 [R2 _]]]]; [cbn; rewrite E; reflexivity | assumption |].
  destruct (file_masked k part PK v MO CT f' 0 c R1 UA) as [gs [G AM]]; [|exact T|].
  - rewrite TY. eapply columns_saved; [exact SV | exact R2 | exact SC|]. cbn beta. intros t a a' _ _ ED EA _ [P1 P2]. unfold rows in *. rewrite ED, EA. auto.
  - exists gs. split; [exact G|]. rewrite TY in AM. split.
    + destruct AM as [L _]. rewrite L. destruct R2 as (_ & _ & F). clear -F. induction F; cbn; congruence.
    + intros t a g NA NG. eapply came_back_of; eassumption.
Qed.

Theorem saved_many : forall fancy fs os n w es f f', read_many k part fancy v fs = Some os -> nth_error fs n = Some f' ->
  saveable k w -> write_file k w None es f = Some f' -> SdsModel.len f' < 2 ^ 62 -> - 32768 <= w_ftype w < 32768 ->
  saved_columns w (fun a => exists a0, nth_error (w_arrays w) 0 = Some a0 /\ rows a0 = rows a) ->
  exists gs, nth_error os n = Some (Arrays gs) /\ length gs = length (w_arrays w) /\
    forall t a g, nth_error (w_arrays w) t = Some a -> nth_error gs t = Some g -> came_back v w t a g.
Proof.
  intros fancy fs os n w es f f' RM N SV E SM FT SC. destruct (saved_type k w es f f' OK SV E SM FT) as [TY UA].
  destruct (sections_read k w None es [] f f' OK SV I I (Forall_nil _)) as [c [offs [R1 [R2 _]]]]; [cbn; rewrite E; reflexivity | assumption |].
  destruct (many_masked k part PK v MO CT fancy fs os n f' c RM N R1 UA) as [gs [G AM]].
  - apply Forall_forall. intros g IN. apply In_nth_error in IN as [t NT]. destruct (nth_restored_back w c t g R2 NT) as [a [NA R]]. destruct (restored_inv a g R) as (a' & -> & _ & _ & R3 & R4 & _).
    pose proof (proj1 (Forall_forall _ _) (sv_arrays k w SV) a (nth_error_In _ _ NA)) as AO. rewrite R3, R4.
    split; [pose proof (ao_ndim a AO); intro X; rewrite X in *; cbn in *; lia|]. split; [eapply Forall_impl; [|exact (ao_dims a AO)]; cbn beta; lia | pose proof (ao_item a AO); lia].
  - rewrite TY. eapply columns_saved; [exact SV | exact R2 | exact SC|]. cbn beta. intros t a a' _ _ ED EA _ (a0 & N0 & RW).
    destruct (nth_restored w c 0 a0 R2 N0) as [g0 [NG R]]. destruct (restored_inv a0 g0 R) as (a0' & -> & _ & _ & R3 & R4 & _). exists a0'. split; [assumption|].
    pose proof (proj1 (Forall_forall _ _) (sv_arrays k w SV) a0 (nth_error_In _ _ N0)) as AO.
    split; [rewrite R4; pose proof (ao_ndim a0 AO); intro X; rewrite X in *; cbn in *; lia|]. unfold rows in *. now rewrite R4, ED.
  - exists gs. split; [exact G|]. rewrite TY in AM. split.
    + destruct AM as [L _]. rewrite L. destruct R2 as (_ & _ & F). clear -F. induction F; cbn; congruence.
    + intros t a g NA NG. eapply came_back_of; eassumption.
Qed.

(* the error for a mask that does not fit *)
Theorem many_error : forall fancy fs, (forall f, In f fs -> exists c n, read_file k f 0 = Some c /\ first_rows c n) ->
  (read_many k part fancy v fs = None <->
   exists b f c n, fancy = Some b /\ In f fs /\ read_file k f 0 = Some c /\ first_rows c n /\ (n < Z.of_nat (MaskModel.len v) \/ (b = false /\ n <> Z.of_nat (MaskModel.len v)))).
Proof.
  intros fancy fs H. unfold read_many. rewrite (mask_sum v MO CT).
  assert (LM : SdsModel.len (read_contiguous v) = Z.of_nat (MaskModel.len v)) by (unfold SdsModel.len; now rewrite mask_len). rewrite LM.
  destruct (existsb _ _) eqn:B.
  - split; [intros _ | reflexivity]. apply existsb_exists in B as [[f o] [IN B]]. apply in_map_iff in IN as [f' [[= <- <-] IN]]. destruct (H f' IN) as (c & n & R & FR).
    destruct (open_read _ _ _ _ R) as (h & bs & O & _ & CA). cbn [snd] in B. rewrite O in B. destruct (first_block k c h bs f' n CA FR) as [FB AW]. unfold mask_mismatch in B. destruct fancy as [b|]; [|discriminate B].
    exists b, f', c, n. repeat (split; [first [reflexivity | assumption]|]). apply andb_prop in B as [_ B]. rewrite FB in B. apply orb_prop in B as [B | B]; [left; now apply Z.ltb_lt|].
    right. apply andb_prop in B as [B1 B2]. destruct b; [discriminate B1|]. split; [reflexivity|]. now apply negb_true_iff, Z.eqb_neq in B2.
  - split; [discriminate|]. intros (b & f & c & n & -> & IN & R & FR & BAD). exfalso. apply not_true_iff_false in B. apply B. apply existsb_exists.
    exists (f, open_section f 0). split; [apply in_map_iff; exists f; auto|]. destruct (open_read _ _ _ _ R) as (h & bs & O & _ & CA). cbn [snd]. rewrite O. destruct (first_block k c h bs f n CA FR) as [FB AW].
    unfold mask_mismatch. rewrite FB. apply andb_true_intro. split; [now apply Z.ltb_lt|]. apply orb_true_intro. destruct BAD as [L | [-> NE]]; [left; now apply Z.ltb_lt|]. right. apply andb_true_intro. split; [reflexivity|]. apply negb_true_iff. now apply Z.eqb_neq.
Qed.
End Saved.
