(** What a section of the file looks like, and that it can be read. *)
From Verif Require Import Base SdsModel SdsSpec SdsProofs Sds2Proofs.
Local Open Scope Z_scope.
Local Opaque le.

Definition piece : Type := Z * list Z.
Definition used_fields : list nat :=
  [NameBlockSize; NameBlockOffset; NameBlockCount; MetaBlockOffset; TotalMetaCompressedSize; TotalMetaUncompressedSize; ArrayBlockSize; ArrayBlockOffset; ArraysWritten].
(* the header h and the pieces ps of the file that belong to a section with the contents w *)
Record describes (k : codec) (w : winfo) (h : list Z) (ps : list piece) : Prop := {
  d_len : length h = 33%nat;
  d_magic : fld h hMagic = 0x20534453;
  d_version : fld h hVersionHigh = 4;
  d_range : Forall (fun i => 0 <= fld h i < 2 ^ 63) used_fields;
  d_nsize : fld h NameBlockSize = len (BuildListInfo (w_names w));
  d_ncount : fld h NameBlockCount = Z.of_nat (length (w_names w));
  d_names : In (fld h NameBlockOffset, BuildListInfo (w_names w)) ps;
  d_meta : exists meta, fld h TotalMetaCompressedSize = len meta /\ In (fld h MetaBlockOffset, meta) ps
           /\ (meta = w_meta w \/ (len meta < len (w_meta w) /\ decomp k meta = Some (w_meta w) /\ meta <> []));
  d_munc : fld h TotalMetaUncompressedSize = len (w_meta w);
  d_written : fld h ArraysWritten = Z.of_nat (length (w_arrays w));
  d_absize : fld h ArrayBlockSize = Z.of_nat (length (w_arrays w)) * 128;
  d_blocks : exists blocks, In (fld h ArrayBlockOffset, concat (map (enc block_layout) blocks)) ps /\ length blocks = length (w_arrays w)
             /\ forall t a, nth_error (w_arrays w) t = Some a ->
                exists off bytes count bsize, pack_array k (w_comp w) (band_used w) a = (bytes, count, bsize)
                  /\ nth_error blocks t = Some (fill_block a off (len bytes) count bsize) /\ In (off, bytes) ps /\ off < 2 ^ 63 /\ len bytes < 2 ^ 62 /\ fld h ArrayBlockOffset + fld h ArrayBlockSize <= off;
  d_order : fld h NameBlockOffset + fld h NameBlockSize <= fld h ArrayBlockOffset /\ fld h MetaBlockOffset + fld h TotalMetaCompressedSize <= fld h ArrayBlockOffset }.
Definition stored (f : file) (off hi : Z) (h : list Z) (ps : list piece) : Prop :=
  has f off (enc_header h) /\ Forall (fun p => has f (fst p) (snd p) /\ off + 512 <= fst p /\ fst p + len (snd p) <= hi) ps.

Definition norm (h : list Z) : list Z := dec header_layout (enc header_layout h).
Lemma norm_header : forall h rest, length h = 33%nat -> dec header_layout (enc header_layout h ++ rest) = norm h.
Proof. intros h rest L. unfold norm. rewrite <- (app_nil_r (enc header_layout h)) at 2. rewrite !dec_enc by (rewrite L; reflexivity). reflexivity. Qed.
Lemma fld_norm : forall h i, length h = 33%nat -> (i < 33)%nat -> fld (norm h) i = conv (nth i header_layout (O, false)) (fld h i).
Proof. intros h i L I. unfold norm. rewrite <- (app_nil_r (enc header_layout h)). apply fld_dec_enc; [rewrite L; reflexivity | exact I]. Qed.
Lemma length_norm : forall h, length (norm h) = 33%nat.
Proof. intro. unfold norm. rewrite length_dec. reflexivity. Qed.
Lemma fld_norm8 : forall h i, length h = 33%nat -> nth i header_layout (O, false) = (8%nat, true) -> 0 <= fld h i < 2 ^ 63 -> fld (norm h) i = fld h i.
Proof.
  intros h i L N R. destruct (Nat.lt_ge_cases i 33) as [I|I].
  - rewrite fld_norm by assumption. rewrite N. unfold conv. cbn [fst snd]. apply sgn8. lia.
  - rewrite nth_overflow in N by exact I. discriminate N.
Qed.
Lemma read_header : forall f off h, length h = 33%nat -> fld h hMagic = 0x20534453 -> fld h hVersionHigh = 4 -> has f off (enc_header h) -> ReadFileHeader f off = Some (norm h).
Proof.
  intros f off h L M V H. unfold ReadFileHeader. replace HEADER with (len (enc_header h)) by (unfold len; rewrite length_enc_header by assumption; reflexivity).
  rewrite (pread_has _ _ _ H). unfold enc_header. rewrite norm_header by assumption.
  rewrite !fld_norm by (exact L || (unfold hMagic, hVersionHigh; lia)). rewrite M, V. reflexivity.
Qed.

(** names *)
Lemma cstr_app : forall s rest, nul_free s -> cstr (s ++ 0 :: rest) = s.
Proof. intros s rest F. induction F as [|c s N F IH]; [reflexivity|]. cbn [app cstr]. apply Z.eqb_neq in N. rewrite N, IH. reflexivity. Qed.
Lemma cstr_id : forall s, nul_free s -> cstr s = s.
Proof. intros s F. induction F as [|c s N F IH]; [reflexivity|]. cbn [cstr]. apply Z.eqb_neq in N. rewrite N, IH. reflexivity. Qed.
Lemma skipn_app_len : forall (x y : list Z) n, n = length x -> skipn n (x ++ y) = y.
Proof. intros x y n ->. rewrite skipn_app, Nat.sub_diag, skipn_all. reflexivity. Qed.
Lemma names_round_trip : forall ns, Forall (fun p => nul_free (fst p) /\ 0 <= snd p < 256) ns -> MakeListNames (length ns) (BuildListInfo ns) = ns.
Proof.
  intros ns F. induction F as [|[name e] ns [N E] F IH]; [reflexivity|]. cbn [fst snd] in *.
  unfold BuildListInfo in *. cbn [map concat fst snd length]. rewrite (cstr_id name N), (Z.mod_small e 256) by lia.
  rewrite <- app_assoc. cbn [app MakeListNames]. set (rest := concat (map (fun p => cstr (fst p) ++ [0; snd p mod 256]) ns)) in *.
  destruct (name ++ 0 :: e :: rest) eqn:D; [destruct name; discriminate D|]. rewrite <- D. rewrite cstr_app by assumption.
  replace (skipn (S (length name)) (name ++ 0 :: e :: rest)) with (e :: rest).
  2:{ change (name ++ 0 :: e :: rest) with (name ++ [0] ++ (e :: rest)). rewrite app_assoc. rewrite skipn_app_len; [reflexivity|]. rewrite app_length. cbn. lia. }
  cbn [firstn skipn unle]. rewrite IH. f_equal. f_equal. lia.
Qed.
Lemma len_names_ge : forall ns, Z.of_nat (length ns) <= len (BuildListInfo ns).
Proof.
  induction ns as [|p ns IH]; [reflexivity|]. unfold BuildListInfo in *. cbn [map concat length]. rewrite len_app.
  assert (1 <= len (cstr (fst p) ++ [0; snd p mod 256])) by (unfold len; rewrite app_length; cbn [length]; lia). lia.
Qed.
Lemma sections_round_trip : forall ss, Forall (fun p => nul_free (fst p) /\ 0 <= snd p < 2 ^ 63) ss -> MakeListSections (length ss) (BuildSections ss) = ss.
Proof.
  intros ss F. induction F as [|[name e] ss [N E] F IH]; [reflexivity|]. cbn [fst snd] in *.
  unfold BuildSections in *. cbn [map concat fst snd length]. rewrite (cstr_id name N).
  rewrite <- !app_assoc. set (rest := concat (map (fun p => cstr (fst p) ++ [0] ++ le 8 (snd p)) ss)) in *.
  change (name ++ [0] ++ le 8 e ++ rest) with (name ++ 0 :: le 8 e ++ rest).
  cbn [MakeListSections]. destruct (name ++ 0 :: le 8 e ++ rest) eqn:D; [destruct name; discriminate D|]. rewrite <- D. rewrite cstr_app by assumption.
  replace (skipn (S (length name)) (name ++ 0 :: le 8 e ++ rest)) with (le 8 e ++ rest).
  2:{ change (name ++ 0 :: le 8 e ++ rest) with (name ++ [0] ++ (le 8 e ++ rest)). rewrite app_assoc. rewrite skipn_app_len; [reflexivity|]. rewrite app_length. cbn. lia. }
  assert (L : length (le 8 e) = 8%nat) by apply length_le.
  rewrite firstn_app, L, Nat.sub_diag, firstn_O, app_nil_r. rewrite firstn_all2 by lia. rewrite (skipn_app_len (le 8 e) rest 8) by (symmetry; exact L).
  rewrite IH. f_equal. f_equal. rewrite unle_le, sgn_mod. apply sgn8. lia.
Qed.

(** blocks *)
Lemma blocks_of_ok : forall bs, Forall (fun b => length b = 23%nat) bs ->
  blocks_of (length bs) (concat (map (enc block_layout) bs)) = map (fun b => dec block_layout (enc block_layout b ++ [])) bs.
Proof.
  intros bs F. induction F as [|b bs L F IH]; [reflexivity|]. cbn [length map concat blocks_of].
  assert (LE : length (enc block_layout b) = 128%nat) by (rewrite length_enc by (rewrite L; reflexivity); apply width_block).
  rewrite (skipn_app_len _ _ 128) by (symmetry; exact LE). rewrite IH. f_equal. f_equal.
  rewrite firstn_app, LE, Nat.sub_diag, firstn_O. f_equal. apply firstn_all2. lia.
Qed.
Lemma len_blocks : forall bs, Forall (fun b => length b = 23%nat) bs -> len (concat (map (enc block_layout) bs)) = 128 * Z.of_nat (length bs).
Proof.
  intros bs F. induction F as [|b bs L F IH]; [reflexivity|]. cbn [length map concat]. rewrite len_app, IH.
  unfold len. rewrite length_enc by (rewrite L; reflexivity). rewrite width_block. lia.
Qed.

Lemma band_small_of : forall k w a, saveable k w -> In a (w_arrays w) -> band_small (w_comp w) (band_used w) a.
Proof.
  intros k w a S IN B C. unfold band_used in *. destruct ((w_band w <? 10000) && (0 <? w_band w)) eqn:E.
  - apply andb_prop in E. destruct E as [E1 E2]. apply Z.ltb_lt in E1, E2. destruct (sv_bands k w S E2 C) as [_ F].
    split; [lia|]. now apply (proj1 (Forall_forall _ _) F).
  - assert (B' : 0 < w_band w) by lia. destruct (sv_bands k w S B' C) as [L F]. split; [|now apply (proj1 (Forall_forall _ _) F)].
    rewrite (proj2 (Z.ltb_lt 0 (w_band w)) B'), andb_true_r in E. apply Z.ltb_ge in E. lia.
Qed.

Definition sections_of (f : file) (off : Z) (h : list Z) : option (list (list Z * Z)) :=
  if (off =? 0) && negb (fld h SectionBlockCount =? 0) then ReadListSections f h else Some [].

Lemma Forall2_nth : forall {A B} (R : A -> B -> Prop) (d : B) la g, (forall t a, nth_error la t = Some a -> R a (g t)) -> Forall2 R la (map g (seq 0 (length la))).
Proof.
  intros A B R d la. induction la as [|a la IH]; intros g H; [constructor|]. cbn [length seq map]. constructor; [now apply (H O)|].
  rewrite <- seq_shift, map_map. apply IH. intros t x E. now apply (H (S t)).
Qed.

Lemma read_section : forall k f off hi w h ps secs, codec_ok k -> saveable k w -> describes k w h ps -> stored f off hi h ps ->
  sections_of f off (norm h) = Some secs ->
  exists c, read_file k f off = Some c /\ restores w c /\ c_sections c = secs.
Proof.
  intros k f off hi w h ps secs OK SV D [HH ST] SEC. pose proof D as D'. destruct D'.
  assert (PR : forall o x, In (o, x) ps -> has f o x) by (intros o x IN; apply (proj1 (Forall_forall _ _) ST) in IN; exact (proj1 IN)).
  assert (NF : forall i, In i used_fields -> fld (norm h) i = fld h i).
  { intros i IN. apply fld_norm8; [exact d_len0 | | now apply (proj1 (Forall_forall _ _) d_range0)].
    unfold used_fields in IN. cbn [In] in IN. repeat (destruct IN as [<- | IN]; [reflexivity|]). destruct IN. }
  unfold read_file. rewrite (read_header f off h d_len0 d_magic0 d_version0 HH).
  rewrite (NF NameBlockSize), (NF NameBlockOffset), (NF NameBlockCount), (NF ArrayBlockSize), (NF ArrayBlockOffset), (NF ArraysWritten) by (unfold used_fields; cbn [In]; auto 12).
  assert (NM : (if fld h NameBlockSize =? 0 then Some []
                else do bs <- pread f (fld h NameBlockOffset) (fld h NameBlockSize); Some (MakeListNames (Z.to_nat (fld h NameBlockCount)) bs)) = Some (w_names w)).
  { rewrite d_nsize0, d_ncount0. destruct (len (BuildListInfo (w_names w)) =? 0) eqn:Z0.
    - apply Z.eqb_eq in Z0. pose proof (len_names_ge (w_names w)). destruct (w_names w); [reflexivity | cbn [length] in *; lia].
    - rewrite (pread_has _ _ _ (PR _ _ d_names0)). rewrite Nat2Z.id. now rewrite names_round_trip by exact (sv_names k w SV). }
  rewrite NM. fold (sections_of f off (norm h)). rewrite SEC.
  destruct d_blocks0 as [blocks [B1 [B2 B3]]].
  assert (BL : Forall (fun b => length b = 23%nat) blocks).
  { apply Forall_forall. intros b IN. apply In_nth_error in IN. destruct IN as [t E].
    assert (T : (t < length (w_arrays w))%nat) by (rewrite <- B2; apply nth_error_Some; congruence).
    destruct (nth_error (w_arrays w) t) as [a|] eqn:EA; [|apply nth_error_None in EA; lia].
    destruct (B3 t a EA) as [o [bytes [cnt [bs [_ [E' _]]]]]]. rewrite E in E'. injection E' as ->. apply length_fill_block. }
  assert (PB : pread f (fld h ArrayBlockOffset) (fld h ArrayBlockSize) = Some (concat (map (enc block_layout) blocks))).
  { replace (fld h ArrayBlockSize) with (len (concat (map (enc block_layout) blocks))) by (rewrite d_absize0, len_blocks, B2 by assumption; lia).
    exact (pread_has _ _ _ (PR _ _ B1)). }
  rewrite PB.
  eexists. split; [reflexivity|]. cbn [c_names c_meta c_arrays c_sections]. split; [|reflexivity]. unfold restores. cbn [c_names c_meta c_arrays]. split; [reflexivity|]. split.
  - unfold DecompressMetaData. rewrite (NF TotalMetaCompressedSize), (NF TotalMetaUncompressedSize), (NF MetaBlockOffset) by (unfold used_fields; cbn [In]; auto 12). destruct d_meta0 as [meta [M1 [M2 M3]]]. rewrite M1, d_munc0.
    rewrite (pread_has _ _ _ (PR _ _ M2)). destruct M3 as [-> | [M3 [M4 M5]]].
    + rewrite Z.eqb_refl, andb_false_r. reflexivity.
    + assert (0 < len meta) by (destruct meta; [congruence | unfold len; cbn; lia]).
      destruct (len meta =? 0) eqn:E1; [apply Z.eqb_eq in E1; lia|]. destruct (len meta =? len (w_meta w)) eqn:E2; [apply Z.eqb_eq in E2; lia|].
      cbn [negb andb]. rewrite M4, Z.eqb_refl. reflexivity.
  - rewrite d_written0, Nat2Z.id. apply Forall2_nth; [exact GNone|]. intros t a EA. destruct (B3 t a EA) as [o [bytes [cnt [bs [P [E [IN [OS [LS _]]]]]]]]].
    assert (INA : In a (w_arrays w)) by (eapply nth_error_In; eassumption).
    rewrite d_absize0. unfold BLOCK. rewrite Z.div_mul by lia. rewrite Nat2Z.id, <- B2, blocks_of_ok by assumption.
    rewrite (map_nth_error _ _ _ E).
    assert (G : negb (fld h NameBlockSize =? 0) && (fld h NameBlockCount <=? Z.of_nat t) = false).
    { rewrite d_nsize0, d_ncount0. destruct (sv_count k w SV) as [Q | Q].
      - rewrite Q. reflexivity.
      - assert (t < length (w_arrays w))%nat by (apply nth_error_Some; congruence). apply andb_false_intro2. apply Z.leb_gt. lia. }
    rewrite G. eapply read_array_ok; try eassumption.
    + exact (proj1 (Forall_forall _ _) (sv_arrays k w SV) a INA).
    + exact (band_small_of k w a SV INA).
    + pose proof (proj1 (Forall_forall _ _) (sv_collision k w SV) a INA) as NC. unfold collision in NC. rewrite P in NC. exact NC.
    + exact (PR _ _ IN).
Qed.
