(** Several calls that append sections to a file. *)
From Verif Require Import Base SdsModel SdsSpec SdsProofs Sds2Proofs Sds3Proofs Sds4Proofs Sds5Proofs.
Local Open Scope Z_scope.
Local Opaque le.

Definition sec_ok (k : codec) (f : file) (doff dres : Z) (p : winfo * Z) : Prop :=
  exists h ps hi, 512 <= snd p /\ stored f (snd p) hi h ps /\ describes k (fst p) h ps /\ hi <= pad (len f) /\ (doff + dres <= snd p \/ hi <= doff).
(* the sections follow each other in the file, from lo on *)
Fixpoint chain (k : codec) (f : file) (doff dres lo : Z) (rest : list (winfo * Z)) : Prop :=
  match rest with
  | [] => True
  | p :: r => lo <= snd p /\ exists h ps hi, (512 <= snd p /\ stored f (snd p) hi h ps /\ describes k (fst p) h ps /\ hi <= pad (len f) /\ (doff + dres <= snd p \/ hi <= doff))
              /\ chain k f doff dres hi r
  end.
Lemma chain_ok : forall k f doff dres rest lo, chain k f doff dres lo rest -> Forall (sec_ok k f doff dres) rest.
Proof. intros k f doff dres rest. induction rest as [|p r IH]; intros lo C; [constructor|]. destruct C as [_ [h [ps [hi [C1 C2]]]]]. constructor; [exists h, ps, hi; exact C1 | exact (IH hi C2)]. Qed.
Lemma chain_grow : forall k f f' doff dres doff' dres' p rest lo,
  (forall q, sec_ok k f doff dres q -> forall h ps hi, (512 <= snd q /\ stored f (snd q) hi h ps /\ describes k (fst q) h ps /\ hi <= pad (len f) /\ (doff + dres <= snd q \/ hi <= doff)) ->
     512 <= snd q /\ stored f' (snd q) hi h ps /\ describes k (fst q) h ps /\ hi <= pad (len f') /\ (doff' + dres' <= snd q \/ hi <= doff')) ->
  chain k f doff dres lo rest -> pad (len f) <= snd p -> lo <= pad (len f) -> sec_ok k f' doff' dres' p -> chain k f' doff' dres' lo (rest ++ [p]).
Proof.
  intros k f f' doff dres doff' dres' p rest. induction rest as [|q r IH]; intros lo K C OF LO SP.
  - cbn. split; [lia|]. destruct SP as [h [ps [hi SP]]]. exists h, ps, hi. split; [exact SP | exact I].
  - cbn [app chain] in *. destruct C as [C0 [h [ps [hi [C1 C2]]]]]. split; [assumption|]. exists h, ps, hi.
    split; [apply K; [exists h, ps, hi; exact C1 | exact C1]|]. apply IH; [exact K | exact C2 | exact OF | | exact SP]. destruct C1 as [_ [_ [_ [C1 _]]]]. exact C1.
Qed.
Definition entries (names : list (list Z)) (rest : list (winfo * Z)) : list (list Z * Z) := combine names (0 :: map snd rest).
(* w0 at the offset 0, [rest] the other sections; names: the section names in the directory, [] when there is no directory *)
Record inv (k : codec) (f : file) (w0 : winfo) (rest : list (winfo * Z)) (names : list (list Z)) (doff dres : Z) (h0 : list Z) (ps0 : list piece) (hi0 : Z) : Prop := {
  i_st : stored f 0 hi0 h0 ps0;
  i_de : describes k w0 h0 ps0;
  i_hi : hi0 <= pad (len f);
  i_rest : Forall (sec_ok k f doff dres) rest;
  i_chain : chain k f doff dres hi0 rest;
  i_off : names = [] -> fld h0 SectionBlockOffset = 0;
  i_dir : match names with
          | [] => rest = [] /\ fld h0 SectionBlockSize = 0 /\ fld h0 SectionBlockCount = 0 /\ fld h0 SectionBlockReservedSize = 0
          | _ => length names = S (length rest) /\ fld h0 SectionBlockSize = len (BuildSections (entries names rest)) /\ fld h0 SectionBlockOffset = doff
                 /\ fld h0 SectionBlockCount = Z.of_nat (length names) /\ fld h0 SectionBlockReservedSize = dres
                 /\ has f doff (BuildSections (entries names rest)) /\ len (BuildSections (entries names rest)) <= dres
                 /\ 512 <= doff /\ hi0 <= doff /\ doff + dres <= len f /\ Forall nul_free names
          end }.

Lemma describes_other : forall k w h h' ps, describes k w h ps -> length h' = 33%nat ->
  (forall i, In i (hMagic :: hVersionHigh :: used_fields) -> fld h' i = fld h i) -> describes k w h' ps.
Proof.
  intros k w h h' ps D L F. unfold used_fields in F. destruct D. 
  constructor; rewrite ?(F hMagic), ?(F hVersionHigh), ?(F NameBlockSize), ?(F NameBlockOffset), ?(F NameBlockCount), ?(F MetaBlockOffset), ?(F TotalMetaCompressedSize), ?(F TotalMetaUncompressedSize), ?(F ArrayBlockSize), ?(F ArrayBlockOffset), ?(F ArraysWritten) by (cbn [In]; auto 15); try assumption.
  apply Forall_forall. intros i IN. rewrite F by (right; right; exact IN). now apply (proj1 (Forall_forall _ _) d_range).
Qed.
Lemma fld_norm_used : forall k w h ps i, describes k w h ps -> In i (hMagic :: hVersionHigh :: used_fields) -> fld (norm h) i = fld h i.
Proof.
  intros k w h ps i D IN. pose proof (d_len _ _ _ _ D) as L. destruct IN as [<- | [<- | IN]].
  - rewrite fld_norm by (exact L || (apply Nat.ltb_lt; reflexivity)). rewrite (d_magic _ _ _ _ D). reflexivity.
  - rewrite fld_norm by (exact L || (apply Nat.ltb_lt; reflexivity)). rewrite (d_version _ _ _ _ D). reflexivity.
  - apply fld_norm8; [exact L | | exact (proj1 (Forall_forall _ _) (d_range _ _ _ _ D) i IN)].
    unfold used_fields in IN. cbn [In] in IN. repeat (destruct IN as [<- | IN]; [reflexivity|]). destruct IN.
Qed.
Lemma length_set_section : forall h a b c d, length (set_section h a b c d) = length h.
Proof. intros. unfold set_section. rewrite !length_upd. reflexivity. Qed.
Lemma set_section_other : forall h a b c d i, i <> SectionBlockSize -> i <> SectionBlockOffset -> i <> SectionBlockCount -> i <> SectionBlockReservedSize ->
  fld (set_section h a b c d) i = fld h i.
Proof. intros. unfold set_section. rewrite !fld_upd_neq by congruence. reflexivity. Qed.
Lemma set_section_fields : forall h a b c d, length h = 33%nat ->
  fld (set_section h a b c d) SectionBlockSize = a /\ fld (set_section h a b c d) SectionBlockOffset = b
  /\ fld (set_section h a b c d) SectionBlockCount = c /\ fld (set_section h a b c d) SectionBlockReservedSize = d.
Proof.
  intros h a b c d L. unfold set_section. repeat split.
  - rewrite !fld_upd_neq by discriminate. apply fld_upd_eq. rewrite L. apply Nat.ltb_lt. reflexivity.
  - rewrite !fld_upd_neq by discriminate. apply fld_upd_eq. rewrite length_upd, L. apply Nat.ltb_lt. reflexivity.
  - rewrite !fld_upd_neq by discriminate. apply fld_upd_eq. rewrite !length_upd, L. apply Nat.ltb_lt. reflexivity.
  - apply fld_upd_eq. rewrite !length_upd, L. apply Nat.ltb_lt. reflexivity.
Qed.
Lemma len_directory : forall ss r, 0 <= r -> len (directory ss r) = r.
Proof. intros ss r R. unfold directory, len. rewrite firstn_length, app_length, repeat_length. lia. Qed.
Lemma has_directory : forall f o ss r, len (BuildSections ss) <= r -> has f o (directory ss r) -> has f o (BuildSections ss).
Proof.
  intros f o ss r L H. apply (has_prefix f o _ (length (BuildSections ss))) in H. unfold directory in H. rewrite firstn_firstn in H.
  rewrite Nat.min_l in H by (unfold len in L; lia). rewrite firstn_app, Nat.sub_diag, firstn_O, firstn_all, app_nil_r in H. exact H.
Qed.
Lemma len_sections_pos : forall ss, 9 * Z.of_nat (length ss) <= len (BuildSections ss).
Proof.
  induction ss as [|p ss IH]; [reflexivity|]. unfold BuildSections in *. cbn [map concat length]. rewrite !len_app.
  unfold len at 1 2 3. rewrite length_le. cbn [length]. lia.
Qed.
Lemma not_late : forall h i v a b c d, ~ late i -> fld (upd (set_section h a b c d) TimeStampUTCNanos v) i = fld h i.
Proof.
  intros h i v a b c d N. unfold late in N. rewrite fld_upd_neq by (intros <-; apply N; auto 6). apply set_section_other; intros ->; apply N; auto 6.
Qed.

(* what a call has done before EndCompressedFile *)
Lemma call_facts : forall k w sec es f f', codec_ok k -> write_file k w sec es f = Some f' ->
  exists f0 off meta f1 h offs s, meta_ok k w meta /\ h = FillFileHeader w off (len (BuildListInfo (w_names w))) (len meta)
    /\ f1 = pwrite (pwrite (pwrite f0 off (enc_header h)) (off + 512) (BuildListInfo (w_names w))) (off + 512 + pad (len (BuildListInfo (w_names w)))) meta
    /\ ((f0 = [] /\ off = 0 /\ match sec, f with Some _, Some g => len g = 0 | _, _ => True end)
        \/ (exists name, sec = Some name /\ f = Some f0 /\ 0 < len f0 /\ off = pad (len f0) /\ ReadFileHeader f0 0 <> None))
    /\ 0 <= off /\ off mod 512 = 0 /\ winv k w h f1 offs s
    /\ forallb (fun x => match x with WDone => true | _ => false end) (s_stat s) = true
    /\ EndCompressedFile sec (w_time w) (s_file s) (s_head s) (s_blocks s) = Some f'
    /\ fld (s_head s) FileOffset = off /\ off + 512 <= fld (s_head s) ArrayFirstOffset + fld (s_head s) TotalArrayCompressedSize.
Proof.
  intros k w sec es f f' OK E. unfold write_file in E.
  destruct (StartCompressedFile k w sec f) as [[f1 h]|] eqn:ST; [|discriminate E].
  destruct (start_facts k w sec f f1 h OK ST) as [f0 [off [meta [MO [H1 [H2 H3]]]]]].
  assert (OFF : 0 <= off /\ off mod 512 = 0).
  { destruct H3 as [[_ [-> _]] | [name [_ [_ [L [-> _]]]]]]; [split; [lia | reflexivity]|]. split; [apply pad_nonneg; lia | apply pad_mod]. }
  destruct OFF as [O0 OM].
  destruct (wrun k w es (start w h f1)) as [s|] eqn:R; unfold start in R; rewrite R in E; [|discriminate E].
  destruct (forallb (fun x => match x with WDone => true | _ => false end) (s_stat s)) eqn:DN; [|discriminate E].
  pose proof (pad_nonneg _ (len_nonneg (BuildListInfo (w_names w)))) as P1. pose proof (pad_nonneg _ (len_nonneg meta)) as P2. pose proof (pad_nonneg (Z.of_nat (length (w_arrays w)) * BLOCK) ltac:(unfold BLOCK; lia)) as P3.
  assert (FF : fld h ArrayFirstOffset = 512 + off + pad (len (BuildListInfo (w_names w))) + pad (len meta) + pad (Z.of_nat (length (w_arrays w)) * BLOCK)) by (rewrite H1; reflexivity).
  assert (FM : fld h ArrayFirstOffset mod 512 = 0).
  { rewrite FF. repeat (apply mod_add; [|apply pad_mod]). apply mod_add; [reflexivity | assumption]. }
  assert (I : exists offs, winv k w h f1 offs s).
  { refine (winv_run k w h f1 _ _ _ FM es (fun _ => 0) _ s (winv_start k w h f1 _ _ _) R).
    - rewrite H1. reflexivity.
    - rewrite H1. reflexivity.
    - rewrite FF. lia.
    - rewrite H1. reflexivity.
    - rewrite H1. reflexivity.
    - rewrite H1. reflexivity. }
  destruct I as [offs I]. exists f0, off, meta, f1, h, offs, s. repeat (split; [assumption|]).
  split; [rewrite (wi_head _ _ _ _ _ _ I) by discriminate; rewrite H1; reflexivity|].
  rewrite (wi_head _ _ _ _ _ _ I) by discriminate. pose proof (proj1 (wi_tc _ _ _ _ _ _ I)). lia.
Qed.

Lemma some_inj : forall {A} (a b : A), Some a = Some b -> a = b.
Proof. congruence. Qed.

(* the fresh file *)
Lemma fresh_inv : forall k w sec es f f', codec_ok k -> saveable k w -> (match sec, f with Some _, Some g => len g = 0 | _, _ => True end) ->
  match sec with Some name => nul_free name | None => True end ->
  write_file k w sec es f = Some f' -> len f' < 2 ^ 62 ->
  exists doff dres h0 ps0 hi0, inv k f' w [] (match sec with Some name => [name] | None => [] end) doff dres h0 ps0 hi0.
Proof.
  intros k w sec es f f' OK SV FR NF E SM.
  destruct (call_facts k w sec es f f' OK E) as [f0 [off [meta [f1 [h [offs [s [MO [H1 [H2 [H3 [O0 [OM [I [DN [EN [FO LO]]]]]]]]]]]]]]]]].
  assert (OZ : off = 0). { destruct H3 as [[_ [-> _]] | [name [-> [-> [L _]]]]]; [reflexivity | lia]. } clear H3. rewrite OZ in *. clear OZ off.
  unfold EndCompressedFile in EN. rewrite FO in EN. change (0 =? 0) with true in EN. cbv iota in EN.
  set (last := fld (s_head s) ArrayFirstOffset + fld (s_head s) TotalArrayCompressedSize) in *.
  pose proof (wi_hlen _ _ _ _ _ _ I) as HL.
  destruct sec as [name|].
  - set (ss := [(name, 0)]) in *. set (size := len (BuildSections ss)) in *.
    assert (S0 : 9 <= size) by (pose proof (len_sections_pos ss) as P; fold size in P; unfold ss in P; cbn [length] in P; lia).
    pose proof (pad_ge size) as PS. set (h1 := set_section (s_head s) size last 1 (pad size)) in *.
    set (g := pwrite (s_file s) last (directory ss (pad size))) in *.
    assert (LD : len (directory ss (pad size)) = pad size) by (apply len_directory; lia).
    apply some_inj in EN.
    destruct (section_written k w 0 meta f0 f1 h offs s g (upd h1 TimeStampUTCNanos (w_time w)) OK SV MO O0 OM H1 H2 I DN) as [W1 [W2 [W3 [W4 [ps [W5 W6]]]]]].
    + intros o x H Q1 Q2. apply has_pwrite_other; [assumption | fold last in Q2; lia |]. left. exact Q2.
    + apply len_pwrite_ge. lia.
    + unfold h1. rewrite length_upd, length_set_section. exact HL.
    + intros i NL. apply not_late. exact NL.
    + rewrite EN. exact SM.
    + fold last in W1, W2, W4, W5. rewrite EN in *.
      assert (HG : has g last (directory ss (pad size))) by (apply has_pwrite_same; lia).
      destruct (set_section_fields (s_head s) size last 1 (pad size) HL) as [F1 [F2 [F3 F4]]]. fold h1 in F1, F2, F3, F4.
      exists last, (pad size), (upd h1 TimeStampUTCNanos (w_time w)), ps, last. constructor.
      * exact W5.
      * exact W6.
      * exact W2.
      * constructor.
      * exact Logic.I.
      * discriminate.
      * rewrite !fld_upd_neq by discriminate. change (entries [name] []) with ss. fold size.
        split; [reflexivity|]. split; [assumption|]. split; [assumption|]. split; [rewrite F3; reflexivity|]. split; [assumption|].
        split; [apply has_directory with (r := pad size); [fold size; lia|]; apply W4; [exact HG | right; lia]|].
        split; [lia|]. split; [lia|]. split; [lia|]. split; [|repeat constructor; exact NF].
        assert (D : directory ss (pad size) <> []) by (intro X; rewrite X in LD; change (len []) with 0 in LD; lia).
        pose proof (has_le_len _ _ _ HG D) as Q. rewrite LD in Q. lia.
  - apply some_inj in EN.
    destruct (section_written k w 0 meta f0 f1 h offs s (s_file s) (upd (s_head s) TimeStampUTCNanos (w_time w)) OK SV MO O0 OM H1 H2 I DN) as [W1 [W2 [W3 [W4 [ps [W5 W6]]]]]].
    + intros o x H _ _. exact H.
    + lia.
    + rewrite length_upd. exact HL.
    + intros i NL. apply fld_upd_neq. intros <-. apply NL. unfold late. auto.
    + rewrite EN. exact SM.
    + fold last in W1, W2, W4, W5. rewrite EN in *.
      exists 0, 0, (upd (s_head s) TimeStampUTCNanos (w_time w)), ps, last. constructor; try assumption.
      * constructor.
      * intros _. rewrite !fld_upd_neq by discriminate. rewrite !(wi_head _ _ _ _ _ _ I) by discriminate. rewrite H1. reflexivity.
      * rewrite !fld_upd_neq by discriminate. rewrite !(wi_head _ _ _ _ _ _ I) by discriminate. rewrite H1. repeat split; reflexivity.
Qed.

(* one more section *)
Definition listed (names : list (list Z)) : list (list Z) := match names with [] => [[48]] | _ => names end.
Lemma combine_snoc : forall {A B} (la : list A) (lb : list B) a b, length la = length lb -> combine la lb ++ [(a, b)] = combine (la ++ [a]) (lb ++ [b]).
Proof. intros A B. induction la as [|x la IH]; intros [|y lb] a b L; try discriminate L; [reflexivity|]. cbn. rewrite IH by (cbn in L; lia). reflexivity. Qed.

Lemma write_grows : forall k w name es f f', codec_ok k -> 0 < len f -> write_file k w (Some name) es (Some f) = Some f' -> len f <= len f'.
Proof.
  intros k w name es f f' OK L E.
  destruct (call_facts k w (Some name) es (Some f) f' OK E) as [f0 [off [meta [f1 [h [offs [s [MO [H1 [H2 [H3 [O0 [OM [I [DN [EN [FO LO]]]]]]]]]]]]]]]]].
  destruct H3 as [[_ [_ X]] | [nm [_ [EF [_ [EO _]]]]]]; [lia|]. injection EF as <-.
  assert (L1 : len f <= len (s_file s)).
  { eapply Z.le_trans; [|exact (wi_grow _ _ _ _ _ _ I)]. rewrite H2. pose proof (pad_nonneg _ (len_nonneg (BuildListInfo (w_names w)))).
    eapply Z.le_trans; [|apply len_pwrite_ge; lia]. eapply Z.le_trans; [|apply len_pwrite_ge; lia]. apply len_pwrite_ge. lia. }
  unfold EndCompressedFile in EN. rewrite FO in EN. pose proof (pad_ge (len f)).
  assert (NZ : (off =? 0) = false) by (apply Z.eqb_neq; lia). rewrite NZ in EN.
  destruct (ReadFileHeader (s_file s) 0) as [h0|] eqn:RH; [|discriminate EN].
  assert (AB : 0 <= fld (s_head s) ArrayBlockOffset).
  { rewrite (wi_head _ _ _ _ _ _ I) by discriminate. rewrite H1. pose proof (pad_nonneg _ (len_nonneg (BuildListInfo (w_names w)))). pose proof (pad_nonneg _ (len_nonneg meta)).
    change (0 <= 512 + off + pad (len (BuildListInfo (w_names w))) + pad (len meta)). lia. }
  revert EN. generalize (match ReadListSections (s_file s) h0 with Some ss => (ss, fld h0 SectionBlockCount) | None => ([([48], 0)], 1) end). intros [old cnt].
  destruct (fld h0 SectionBlockReservedSize <? len (BuildSections (old ++ [(name, off)]))) eqn:B; intro EN; apply some_inj in EN; subst f'.
  - repeat (eapply Z.le_trans; [|apply len_pwrite_ge; lia]). exact L1.
  - eapply Z.le_trans; [|apply len_pwrite_ge; lia]. eapply Z.le_trans; [|apply len_pwrite_ge; lia]. eapply Z.le_trans; [|apply len_pwrite_ge; lia].
    destruct (Z_le_gt_dec 0 (fld h0 SectionBlockOffset)); [eapply Z.le_trans; [|apply len_pwrite_ge; lia]; exact L1|].
    eapply Z.le_trans; [exact L1|]. unfold pwrite. destruct (directory _ _) as [|b bs]; [lia|]. replace (Z.to_nat (fld h0 SectionBlockOffset)) with O by lia.
    unfold len. rewrite !app_length, firstn_length, repeat_length, skipn_length. lia.
Qed.

Lemma append_inv : forall k w name es f f' w0 rest names doff dres h0 ps0 hi0, codec_ok k -> saveable k w -> nul_free name ->
  inv k f w0 rest names doff dres h0 ps0 hi0 -> write_file k w (Some name) es (Some f) = Some f' -> len f' < 2 ^ 62 ->
  exists off doff' dres' h0' hi0', inv k f' w0 (rest ++ [(w, off)]) (listed names ++ [name]) doff' dres' h0' ps0 hi0'.
Proof.
  intros k w name es f f' w0 rest names doff dres h0 ps0 hi0 OK SV NF INV E SM.
  destruct INV as [IST IDE IHI IREST ICHAIN IOFF IDIR]. pose proof (d_len _ _ _ _ IDE) as HL0.
  assert (LH0 : len (enc_header h0) = 512) by (unfold len; rewrite length_enc_header by assumption; reflexivity).
  assert (LF : 512 <= len f).
  { pose proof (has_le_len f 0 (enc_header h0) (proj1 IST) ltac:(intro X; rewrite X in LH0; discriminate LH0)). lia. }
  assert (GROW : len f <= len f') by (eapply write_grows; eauto; lia).
  destruct (call_facts k w (Some name) es (Some f) f' OK E) as [f0 [off [meta [f1 [h [offs [s [MO [H1 [H2 [H3 [O0 [OM [I [DN [EN [FO LO]]]]]]]]]]]]]]]]].
  destruct H3 as [[_ [_ X]] | [nm [_ [EF [_ [EO _]]]]]]; [lia|]. injection EF as <-. pose proof (pad_ge (len f)) as PF.
  pose proof (wi_hlen _ _ _ _ _ _ I) as HL.
  set (last := fld (s_head s) ArrayFirstOffset + fld (s_head s) TotalArrayCompressedSize) in *.
  assert (FIRST : off + 512 <= first h).
  { unfold first. rewrite H1. pose proof (pad_nonneg _ (len_nonneg (BuildListInfo (w_names w)))). pose proof (pad_nonneg _ (len_nonneg meta)). pose proof (pad_nonneg (Z.of_nat (length (w_arrays w)) * BLOCK) ltac:(unfold BLOCK; lia)).
    change (off + 512 <= 512 + off + pad (len (BuildListInfo (w_names w))) + pad (len meta) + pad (Z.of_nat (length (w_arrays w)) * BLOCK)). lia. }
  (* what was in the file is still there *)
  assert (K1 : forall o x, has f o x -> has (s_file s) o x).
  { intros o x H. apply has_empty_or with f; [assumption|]. intro NE. pose proof (has_le_len f o x H NE).
    apply (wi_old _ _ _ _ _ _ I); [lia|]. rewrite H2. pose proof (pad_nonneg _ (len_nonneg (BuildListInfo (w_names w)))).
    repeat (apply has_pwrite_other; [|lia|left; lia]). exact H. }
  unfold EndCompressedFile in EN. fold last in EN. rewrite FO in EN.
  assert (NZ : (off =? 0) = false) by (apply Z.eqb_neq; lia). rewrite NZ in EN.
  assert (RH : ReadFileHeader (s_file s) 0 = Some (norm h0)).
  { apply read_header; [exact HL0 | exact (d_magic _ _ _ _ IDE) | exact (d_version _ _ _ _ IDE) | apply K1; exact (proj1 IST)]. }
  rewrite RH in EN.
  assert (OLD : (match ReadListSections (s_file s) (norm h0) with Some ss => (ss, fld (norm h0) SectionBlockCount) | None => ([([48], 0)], 1) end)
     = (entries (listed names) rest, Z.of_nat (length (listed names))) /\ length (listed names) = S (length rest)
     /\ Forall nul_free (listed names)
     /\ (fld (norm h0) SectionBlockReservedSize = 0 \/ (fld (norm h0) SectionBlockReservedSize = dres /\ fld (norm h0) SectionBlockOffset = doff /\ 512 <= doff /\ hi0 <= doff /\ doff + dres <= len f))).
  { assert (C0 : forall i, fld h0 i = 0 -> nth i header_layout (O, false) = (8%nat, true) -> fld (norm h0) i = 0).
    { intros i Z0 N. rewrite fld_norm8; [assumption | assumption | assumption | rewrite Z0; lia]. }
    destruct names as [|n0 names'].
    - destruct IDIR as [-> [Z1 [Z2 Z3]]]. unfold ReadListSections. rewrite (C0 SectionBlockSize Z1 eq_refl). cbn [Z.eqb].
      split; [reflexivity|]. split; [reflexivity|]. split; [repeat constructor; lia|]. left. apply C0; [assumption | reflexivity].
    - destruct IDIR as [D1 [D2 [D3 [D4 [D5 [D6 [D7 [D8 [D9 [D10 D11]]]]]]]]]]. cbn [listed]. set (names := n0 :: names') in *.
      pose proof (len_sections_pos (entries names rest)) as LS. pose proof (len_nonneg (BuildSections (entries names rest))) as LN.
      assert (LE : length (entries names rest) = length names) by (unfold entries; rewrite combine_length; cbn [length]; rewrite map_length; lia).
      assert (B62 : 2 ^ 62 < 2 ^ 63) by reflexivity.
      assert (N1 : fld (norm h0) SectionBlockSize = len (BuildSections (entries names rest))) by (rewrite fld_norm8; [assumption | assumption | reflexivity | lia]).
      assert (N2 : fld (norm h0) SectionBlockOffset = doff) by (rewrite fld_norm8; [assumption | assumption | reflexivity | lia]).
      assert (N3 : fld (norm h0) SectionBlockCount = Z.of_nat (length names)) by (rewrite fld_norm8; [assumption | assumption | reflexivity | lia]).
      assert (N4 : fld (norm h0) SectionBlockReservedSize = dres) by (rewrite fld_norm8; [assumption | assumption | reflexivity | lia]).
      unfold ReadListSections. rewrite N1, N2, N3, N4.
      destruct (len (BuildSections (entries names rest)) =? 0) eqn:Z0; [apply Z.eqb_eq in Z0; rewrite LE in LS; cbn [length names] in LS; lia|].
      rewrite (pread_has _ _ _ (K1 _ _ D6)). rewrite Nat2Z.id, <- LE, sections_round_trip.
      + rewrite LE. split; [reflexivity|]. split; [assumption|]. split; [assumption|]. right. repeat split; lia.
      + apply Forall_forall. intros [nm2 o] IN. unfold entries in IN. pose proof (in_combine_l _ _ _ _ IN) as IL. pose proof (in_combine_r _ _ _ _ IN) as IR. cbn [fst snd].
        split; [exact (proj1 (Forall_forall _ _) D11 nm2 IL)|]. destruct IR as [<- | IR]; [lia|]. apply in_map_iff in IR. destruct IR as [p [<- IP]].
        destruct (proj1 (Forall_forall _ _) IREST p IP) as [hh [pp [hi [Q1 [[Q2 _] [Q3 _]]]]]]. pose proof (d_len _ _ _ _ Q3) as QL.
        assert (LQ : len (enc_header hh) = 512) by (unfold len; rewrite length_enc_header by assumption; reflexivity).
        pose proof (has_le_len f (snd p) (enc_header hh) Q2 ltac:(intro Y; rewrite Y in LQ; discriminate LQ)). lia. }
  destruct OLD as [OLD [LNM [FNM RES]]]. rewrite OLD in EN.
  set (ss := entries (listed names) rest ++ [(name, off)]) in *.
  assert (SSE : ss = entries (listed names ++ [name]) (rest ++ [(w, off)])).
  { unfold ss, entries. rewrite map_app. cbn [map snd]. rewrite app_comm_cons. apply combine_snoc. cbn [length]. rewrite map_length. exact LNM. }
  set (size := len (BuildSections ss)) in *. pose proof (pad_ge size) as PS.
  assert (S0 : 9 <= size).
  { pose proof (len_sections_pos ss) as P. fold size in P. unfold ss in P. rewrite app_length in P. cbn [length] in P. lia. }
  (* where the directory goes *)
  assert (DIR : exists soff sres, (if fld (norm h0) SectionBlockReservedSize <? size then (last, pad size) else (fld (norm h0) SectionBlockOffset, fld (norm h0) SectionBlockReservedSize)) = (soff, sres)
     /\ size <= sres /\ ((soff = last) \/ (soff = doff /\ sres = dres /\ 512 <= doff /\ hi0 <= doff /\ doff + dres <= len f))).
  { destruct (fld (norm h0) SectionBlockReservedSize <? size) eqn:B.
    - exists last, (pad size). split; [reflexivity|]. split; [lia | now left].
    - apply Z.ltb_ge in B. destruct RES as [R | [R1 [R2 R3]]]; [lia|]. exists doff, dres. rewrite R1, R2. split; [reflexivity|]. rewrite R1 in B. split; [assumption | right; auto]. }
  destruct DIR as [soff [sres [DE [DS DW]]]]. rewrite DE in EN.
  set (h0' := set_section (norm h0) size soff (Z.of_nat (length (listed names)) + 1) sres) in *.
  assert (HL0' : length h0' = 33%nat) by (unfold h0'; rewrite length_set_section; apply length_norm).
  assert (LH0' : len (enc_header h0') = 512) by (unfold len; rewrite length_enc_header by assumption; reflexivity).
  assert (LD : len (directory ss sres) = sres) by (apply len_directory; lia).
  assert (SO : 512 <= soff) by (destruct DW as [-> | [-> ?]]; lia).
  set (g := pwrite (pwrite (s_file s) soff (directory ss sres)) 0 (enc_header h0')) in *.
  apply some_inj in EN.
  destruct (section_written k w off meta f f1 h offs s g (upd (s_head s) TimeStampUTCNanos (w_time w)) OK SV MO O0 OM H1 H2 I DN) as [W1 [W2 [W3 [W4 [ps [W5 W6]]]]]].
  { intros o x H Q1 Q2. fold last in Q2. unfold g. apply has_pwrite_other; [apply has_pwrite_other; [assumption | lia |] | lia |]; rewrite ?LH0', ?LD; [|lia].
    destruct DW as [-> | [-> [-> ?]]]; lia. }
  { unfold g. eapply Z.le_trans; [|apply len_pwrite_ge; lia]. apply len_pwrite_ge. lia. }
  { rewrite length_upd. exact HL. }
  { intros i NL. apply fld_upd_neq. intros <-. apply NL. unfold late. auto. }
  { rewrite EN. exact SM. }
  fold last in W1, W2, W4, W5. rewrite EN in *.
  (* a piece of an old section *)
  assert (KEEP : forall lo hi o x, has f o x -> lo <= o -> o + len x <= hi -> 512 <= lo -> (soff = last \/ soff + sres <= lo \/ hi <= soff) -> has f' o x).
  { intros lo hi o x H Q1 Q2 Q3 Q4. apply has_empty_or with f; [assumption|]. intro NE. pose proof (has_le_len f o x H NE).
    apply W4; [|left; lia]. unfold g. apply has_pwrite_other; [apply has_pwrite_other; [now apply K1 | lia |] | lia |]; rewrite ?LH0', ?LD; [|lia].
    destruct Q4 as [-> | [Q4 | Q4]]; lia. }
  assert (HG : has g soff (directory ss sres)). { unfold g. apply has_pwrite_other; [apply has_pwrite_same; lia | lia | rewrite LH0'; lia]. }
  assert (HD : has f' soff (directory ss sres)). { apply W4; [exact HG|]. rewrite LD. destruct DW as [-> | [-> [-> ?]]]; [right; lia | left; lia]. }
  assert (NED : directory ss sres <> []) by (intro Y; rewrite Y in LD; change (len []) with 0 in LD; lia).
  destruct (set_section_fields (norm h0) size soff (Z.of_nat (length (listed names)) + 1) sres (length_norm h0)) as [F1 [F2 [F3 F4]]]. fold h0' in F1, F2, F3, F4.
  pose proof (pad_mono _ _ GROW) as PM.
  assert (CH : chain k f' soff sres hi0 (rest ++ [(w, off)])).
  { apply chain_grow with f doff dres; [|exact ICHAIN | cbn [snd]; lia | exact IHI |].
    + intros p _ hh pp hi [Q1 [Q2 [Q3 [Q4 Q5]]]].
      assert (SEP : soff = last \/ soff + sres <= snd p \/ hi <= soff) by (destruct DW as [-> | [-> [-> ?]]]; [now left | right; exact Q5]).
      split; [assumption|]. split; [|split; [assumption|]; split; [lia|]].
      * destruct Q2 as [Q2 Q6]. pose proof (d_len _ _ _ _ Q3) as QL. assert (LQ : len (enc_header hh) = 512) by (unfold len; rewrite length_enc_header by assumption; reflexivity).
        assert (HHI : snd p + 512 <= hi).
        { pose proof (proj1 (Forall_forall _ _) Q6 _ (d_names _ _ _ _ Q3)) as [_ [A1 A2]]. cbn [fst snd] in A1, A2. pose proof (len_nonneg (BuildListInfo (w_names (fst p)))). lia. }
        split.
        -- apply KEEP with (snd p) hi; try assumption; lia.
        -- eapply Forall_impl; [|exact Q6]. cbn beta. intros q [R1 [R2 R3]]. split; [|auto]. apply KEEP with (snd p) hi; try assumption; lia.
      * destruct SEP as [-> | SEP]; [right; lia | exact SEP].
    + exists (upd (s_head s) TimeStampUTCNanos (w_time w)), ps, last. cbn [fst snd].
      split; [lia|]. split; [exact W5|]. split; [exact W6|]. split; [exact W2|]. destruct DW as [-> | [-> [-> ?]]]; [right; lia | left; lia]. }
  exists off, soff, sres, h0', hi0. constructor.
  - split.
    + apply W4; [apply has_pwrite_same; lia | rewrite LH0'; left; lia].
    + eapply Forall_impl; [|exact (proj2 IST)]. cbn beta. intros p [P1 [P2 P3]]. split; [|auto].
      apply KEEP with 512 hi0; try assumption; lia.
  - apply describes_other with h0; [exact IDE | exact HL0' |]. intros i IN. unfold h0'. rewrite set_section_other.
    + eapply fld_norm_used; eassumption.
    + intros ->. unfold used_fields in IN. cbn [In] in IN. repeat (destruct IN as [X | IN]; [discriminate X|]). destruct IN.
    + intros ->. unfold used_fields in IN. cbn [In] in IN. repeat (destruct IN as [X | IN]; [discriminate X|]). destruct IN.
    + intros ->. unfold used_fields in IN. cbn [In] in IN. repeat (destruct IN as [X | IN]; [discriminate X|]). destruct IN.
    + intros ->. unfold used_fields in IN. cbn [In] in IN. repeat (destruct IN as [X | IN]; [discriminate X|]). destruct IN.
  - lia.
  - exact (chain_ok _ _ _ _ _ _ CH).
  - exact CH.
  - intro X. destruct (listed names); discriminate X.
  - destruct (listed names ++ [name]) as [|x xs] eqn:LX; [destruct (listed names); discriminate LX|]. rewrite <- LX in *. rewrite <- SSE. fold size.
    rewrite !app_length. cbn [length].
    split; [lia|]. split; [assumption|]. split; [assumption|]. split; [rewrite F3; lia|]. split; [assumption|].
    split; [apply has_directory with sres; assumption|]. split; [assumption|]. split; [assumption|]. split; [destruct DW as [-> | [-> ?]]; lia|].
    split; [pose proof (has_le_len _ _ _ HD NED) as Q; rewrite LD in Q; exact Q|].
    apply Forall_app. split; [assumption | repeat constructor; assumption].
Qed.
