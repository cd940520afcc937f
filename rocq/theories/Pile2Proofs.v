(** Appending one file to another. *)
From Verif Require Import Base SdsModel SdsSpec SdsProofs Sds2Proofs Sds3Proofs Sds4Proofs Sds5Proofs Sds6Proofs Sds7Proofs PileModel PileSpec PileProofs.
Local Open Scope Z_scope.
Local Opaque le.

(** ** The disk *)
Lemma named_same : forall n, named n n = true.
Proof. intro. unfold named. destruct (list_eq_dec Z.eq_dec n n); congruence. Qed.
Lemma named_other : forall n m, n <> m -> named n m = false.
Proof. intros. unfold named. destruct (list_eq_dec Z.eq_dec n m); congruence. Qed.
Lemma put_same : forall d n f, put d n f n = Some f.
Proof. intros. unfold put. now rewrite named_same. Qed.
Lemma put_other : forall d n f m, m <> n -> put d n f m = d m.
Proof. intros. unfold put. now rewrite named_other. Qed.
Lemma write_same : forall d o g off bs, d o = Some g -> write_chunk d o off bs o = Some (pwrite g off bs).
Proof. intros d o g off bs E. unfold write_chunk. rewrite put_same. unfold on_disk. now rewrite E. Qed.
Lemma write_other : forall d o off bs m, m <> o -> write_chunk d o off bs m = d m.
Proof. intros. unfold write_chunk. now apply put_other. Qed.
Lemma on_disk_is : forall d n f, d n = Some f -> on_disk d n = f.
Proof. intros d n f E. unfold on_disk. now rewrite E. Qed.

Lemma dec_header : forall h, length h = 33%nat -> dec header_layout (enc_header h) = norm h.
Proof. intros. unfold enc_header. now apply norm_header. Qed.
Lemma len_header : forall h, length h = 33%nat -> len (enc_header h) = 512.
Proof. intros. unfold len. now rewrite length_enc_header. Qed.
Lemma header_ne : forall h, length h = 33%nat -> enc_header h <> [].
Proof. intros h L X. pose proof (len_header h L) as Y. rewrite X in Y. discriminate Y. Qed.

(** ** Copying *)
Lemma read_chunk_whole : forall f loc c, 0 <= loc -> 0 <= c -> loc + c <= len f -> read_chunk f loc c = firstn (Z.to_nat c) (skipn (Z.to_nat loc) f).
Proof.
  intros f loc c L C B. unfold read_chunk. assert (E : (Z.to_nat c - length (firstn (Z.to_nat c) (skipn (Z.to_nat loc) f)) = 0)%nat).
  { rewrite firstn_length, skipn_length. unfold len in B. lia. }
  rewrite E. apply app_nil_r.
Qed.
Section Copy.
  Context (f : file) (n o : fname) (fo : Z).
  Hypothesis NO : n <> o.
  Hypothesis F0 : 0 <= fo.
  Lemma copy_ok : forall fuel d g left loc, d n = Some f -> d o = Some g -> 0 <= loc -> 0 <= left -> loc + left = len f -> fo + loc <= len g -> (Z.to_nat left <= fuel)%nat ->
    exists g', copy_rest fuel d n o left loc (fo + loc) o = Some g' /\ (forall m, m <> o -> copy_rest fuel d n o left loc (fo + loc) m = d m)
      /\ len g' = Z.max (len g) (fo + len f)
      /\ (forall i, (Z.to_nat loc <= i)%nat -> (i < length f)%nat -> nth_error g' (Z.to_nat fo + i) = nth_error f i)
      /\ (forall i, (i < Z.to_nat fo + Z.to_nat loc)%nat -> nth_error g' i = nth_error g i).
  Proof.
    induction fuel as [|fuel IH]; intros d g left loc DN DO L0 LL S GL FU.
    - exists g. cbn [copy_rest]. assert (left = 0) by lia. subst left. unfold len in *. split; [assumption|]. split; [reflexivity|]. split; [lia|]. split; [intros; lia | reflexivity].
    - cbn [copy_rest]. destruct (Z.ltb_spec 0 left) as [LP|LP].
      2:{ exists g. assert (left = 0) by lia. subst left. unfold len in *. split; [assumption|]. split; [reflexivity|]. split; [lia|]. split; [intros; lia | reflexivity]. }
      set (c := if BUFFER_SIZE <? left then BUFFER_SIZE else left).
      assert (C : 0 < c <= left) by (unfold c; destruct (Z.ltb_spec BUFFER_SIZE left); unfold BUFFER_SIZE in *; lia). clearbody c.
      rewrite (on_disk_is d n f DN). rewrite read_chunk_whole by lia. set (bs := firstn (Z.to_nat c) (skipn (Z.to_nat loc) f)).
      assert (LB : length bs = Z.to_nat c) by (unfold bs; rewrite firstn_length, skipn_length; unfold len in S; lia).
      assert (NB : bs <> []) by (intro X; rewrite X in LB; cbn in LB; lia).
      destruct (IH (write_chunk d o (fo + loc) bs) (pwrite g (fo + loc) bs) (left - c) (loc + c)) as [g' [E1 [E2 [E3 [E4 E5]]]]].
      + rewrite write_other by assumption. exact DN.
      + now apply write_same.
      + lia.
      + lia.
      + lia.
      + rewrite len_pwrite by (lia || assumption). unfold len. rewrite LB. lia.
      + lia.
      + replace (fo + (loc + c)) with (fo + loc + c) in * by lia. exists g'. split; [exact E1|]. split; [intros m N; rewrite E2 by assumption; now apply write_other|].
        split; [rewrite E3, len_pwrite by (lia || assumption); unfold len in *; rewrite LB; lia|]. split.
        * intros i I1 I2. destruct (Nat.lt_ge_cases i (Z.to_nat (loc + c))) as [I3|I3]; [|now apply E4].
          rewrite E5 by lia. rewrite nth_error_pwrite by assumption.
          destruct (Nat.ltb_spec (Z.to_nat fo + i) (Z.to_nat (fo + loc))); [lia|]. destruct (Nat.ltb_spec (Z.to_nat fo + i) (Z.to_nat (fo + loc) + length bs)); [|lia].
          unfold bs. rewrite nth_error_firstn. destruct (Nat.ltb_spec (Z.to_nat fo + i - Z.to_nat (fo + loc)) (Z.to_nat c)); [|lia]. rewrite nth_error_skipn. f_equal. lia.
        * intros i I1. rewrite E5 by lia. rewrite nth_error_pwrite by assumption. destruct (Nat.ltb_spec i (Z.to_nat (fo + loc))); [|lia].
          destruct (Nat.ltb_spec i (length g)); [reflexivity|]. unfold len in GL. lia.
  Qed.
End Copy.

(** ** The sections of one file *)
Fixpoint ochain (k : codec) (g : file) (lo top : Z) (rest : list (winfo * Z)) : Prop :=
  match rest with
  | [] => lo <= top
  | p :: r => lo <= snd p /\ exists h ps hi, (stored g (snd p) hi h ps /\ describes k (fst p) h ps /\ hi <= top) /\ ochain k g hi top r
  end.
Lemma stored_hi : forall k w g off hi h ps, stored g off hi h ps -> describes k w h ps -> off + 512 <= hi.
Proof.
  intros k w g off hi h ps [_ ST] D. pose proof (proj1 (Forall_forall _ _) ST _ (d_names _ _ _ _ D)) as [_ [A1 A2]]. cbn [fst snd] in *.
  pose proof (len_nonneg (BuildListInfo (w_names w))). lia.
Qed.
Lemma stored_keep : forall k w g g' off hi h ps, stored g off hi h ps -> describes k w h ps -> (forall o x, has g o x -> off <= o -> o + len x <= hi -> has g' o x) -> stored g' off hi h ps.
Proof.
  intros k w g g' off hi h ps ST D KEEP. pose proof (stored_hi _ _ _ _ _ _ _ ST D) as HI. destruct ST as [HH ST]. split.
  - apply KEEP; [exact HH | lia | rewrite len_header by exact (d_len _ _ _ _ D); lia].
  - eapply Forall_impl; [|exact ST]. cbn beta. intros p [P1 [P2 P3]]. split; [apply KEEP; [assumption | lia | assumption] | auto].
Qed.
Lemma ochain_le : forall k g rest lo top, ochain k g lo top rest -> lo <= top.
Proof.
  intros k g rest. induction rest as [|p r IH]; intros lo top C; [exact C|]. destruct C as [C0 [h [ps [hi [[C1 [C2 C3]] C4]]]]].
  pose proof (stored_hi _ _ _ _ _ _ _ C1 C2). lia.
Qed.
Lemma ochain_keep : forall k g g' rest lo top, ochain k g lo top rest -> (forall o x, has g o x -> lo <= o -> o + len x <= top -> has g' o x) -> ochain k g' lo top rest.
Proof.
  intros k g g' rest. induction rest as [|p r IH]; intros lo top C KEEP; [exact C|]. destruct C as [C0 [h [ps [hi [[C1 [C2 C3]] C4]]]]].
  pose proof (stored_hi _ _ _ _ _ _ _ C1 C2). split; [exact C0|]. exists h, ps, hi. split.
  - split; [|auto]. eapply stored_keep; [exact C1 | exact C2 |]. intros o x H1 H2 H3. apply KEEP; [assumption | lia | lia].
  - apply IH; [exact C4|]. intros o x H1 H2 H3. apply KEEP; [assumption | lia | assumption].
Qed.
Lemma ochain_app : forall k g r1 r2 lo mid top, ochain k g lo mid r1 -> ochain k g mid top r2 -> ochain k g lo top (r1 ++ r2).
Proof.
  intros k g r1. induction r1 as [|p r IH]; intros r2 lo mid top C D.
  - cbn in C. cbn [app]. destruct r2 as [|q r2]; [cbn in *; lia|]. destruct D as [D0 D1]. split; [lia | exact D1].
  - pose proof (ochain_le _ _ _ _ _ D). destruct C as [C0 [h [ps [hi [[C1 [C2 C3]] C4]]]]]. split; [exact C0|]. exists h, ps, hi. split; [split; [exact C1 | split; [exact C2 | lia]]|]. eapply IH; eassumption.
Qed.

Definition shift (fo : Z) (p : winfo * Z) : winfo * Z := (fst p, fo + snd p).

Section One.
  Context (k : codec) (f : file) (n o : fname) (fo : Z).
  Hypothesis NO : n <> o.
  Hypothesis F0 : 0 <= fo.
  Lemma fix_block_ok : forall d w h ps off hi, d n = Some f -> saveable k w -> describes k w h ps -> stored f off hi h ps ->
    fix_array_block d n o fo (norm h) = Some (write_chunk d o (fo + fld h ArrayBlockOffset) (block_fixed fo f h)).
  Proof.
    intros d w h ps off hi DN SV D ST. unfold fix_array_block.
    assert (NF : forall i, In i (hMagic :: hVersionHigh :: used_fields) -> fld (norm h) i = fld h i) by (intros i IN; eapply fld_norm_used; eassumption).
    rewrite (NF ArrayBlockSize), (NF ArraysWritten), (NF ArrayBlockOffset) by (unfold used_fields; cbn [In]; tauto).
    rewrite (on_disk_is d n f DN). destruct (Z.ltb_spec (fld h ArrayBlockSize) (fld h ArraysWritten * BLOCK)) as [X|X]; [|reflexivity].
    rewrite (d_absize _ _ _ _ D), (d_written _ _ _ _ D) in X. unfold BLOCK in X. lia.
  Qed.

  (* the header and the array block of one section are written over the copy *)
  Lemma place : forall w h ps off hi g, saveable k w -> describes k w h ps -> stored f off hi h ps -> 0 <= off -> fo + len f <= len g ->
    let g1 := pwrite g (fo + off) (enc_header (fix_fields fo (norm h))) in
    let g2 := pwrite g1 (fo + fld h ArrayBlockOffset) (block_fixed fo f h) in
    len g2 = len g
    /\ (forall p x, has g p x -> p + len x <= fo + off \/ fo + hi <= p -> has g2 p x)
    /\ ((forall p x, has f p x -> off + 512 <= p -> has g (fo + p) x) -> fo + hi < 2 ^ 63 ->
        exists ps', stored g2 (fo + off) (fo + hi) (fix_fields fo (norm h)) ps' /\ describes k w (fix_fields fo (norm h)) ps').
  Proof.
    intros w h ps off hi g SV D ST O0 GL. cbv zeta.
    destruct (blocks_facts k w h ps f off hi fo SV D ST O0) as [blocks [B1 [B2 [B3 [B4 [B5 B6]]]]]].
    assert (LF : length (fix_fields fo (norm h)) = 33%nat) by (rewrite length_fix; apply length_norm). pose proof (len_header _ LF) as LH.
    pose proof (stored_hi _ _ _ _ _ _ _ ST D) as HI. pose proof ST as [HH STF].
    destruct (proj1 (Forall_forall _ _) STF _ B1) as [PB1 [PB2 PB3]]. cbn [fst snd] in *. rewrite B3 in PB3.
    pose proof (has_le_len f off (enc_header h) HH (header_ne h (d_len _ _ _ _ D))) as HL. rewrite len_header in HL by exact (d_len _ _ _ _ D).
    set (hb := enc_header (fix_fields fo (norm h))) in *. set (bb := block_fixed fo f h) in *. set (ab := fld h ArrayBlockOffset) in *.
    assert (BBL : bb <> [] -> fo + ab + len bb <= len g).
    { intro NB. assert (concat (map (enc block_layout) blocks) <> []) by (intro X; rewrite X in B3; change (len []) with 0 in B3; apply NB; destruct bb; [reflexivity | unfold len in B6, B3; cbn [length] in B6; lia]).
      pose proof (has_le_len f ab _ PB1 H) as Q. rewrite B3 in Q. lia. }
    assert (L1 : len (pwrite g (fo + off) hb) = len g) by (rewrite len_pwrite; [lia | lia | apply header_ne; exact LF]).
    split.
    { destruct (list_eq_dec Z.eq_dec bb []) as [E|E]; [rewrite E; exact L1|]. rewrite len_pwrite by (lia || assumption). rewrite L1. specialize (BBL E). lia. }
    split.
    { intros p x H Q. apply has_pwrite_other; [apply has_pwrite_other; [assumption | lia | lia] | lia |]. lia. }
    intros RAW SM. eapply section_moved with (ps := ps) (f := f); try eassumption.
    - fold hb. apply has_pwrite_other; [apply has_pwrite_same; lia | lia |]. lia.
    - apply has_pwrite_same. lia.
    - intros p x H P1 P2 P3. apply has_pwrite_other; [apply has_pwrite_other; [now apply RAW | lia |] | lia |]; fold ab in P3; lia.
  Qed.

  Lemma fix_sections_ok : forall doff dres rest lo d g, chain k f doff dres lo rest -> Forall (fun p => saveable k (fst p)) rest -> d n = Some f -> d o = Some g -> fo + len f <= len g ->
    lo <= pad (len f) -> 512 <= lo ->
    exists d' g', fix_sections d n o fo (map snd rest) = Some (d', map snd (map (shift fo) rest), true) /\ d' o = Some g' /\ (forall m, m <> o -> d' m = d m)
      /\ len g' = len g
      /\ (forall p x, has g p x -> p + len x <= fo + lo -> has g' p x)
      /\ ((forall p x, has f p x -> lo <= p -> has g (fo + p) x) -> fo + pad (len f) < 2 ^ 63 -> ochain k g' (fo + lo) (fo + pad (len f)) (map (shift fo) rest)).
  Proof.
    intros doff dres rest. induction rest as [|[w off] r IH]; intros lo d g C SV DN DO GL LO L5.
    - exists d, g. split; [reflexivity|]. split; [assumption|]. split; [reflexivity|]. split; [reflexivity|]. split; [auto|]. intros _ _. cbn. lia.
    - destruct C as [C0 [h [ps [hi [[C1 [C2 [C3 [C4 C5]]]] C6]]]]]. cbn [fst snd] in *. apply Forall_cons_iff in SV. destruct SV as [SV SVS]. cbn [fst] in SV.
      pose proof (d_len _ _ _ _ C3) as HL. pose proof (stored_hi _ _ _ _ _ _ _ C2 C3) as HI.
      cbn [map snd fix_sections]. rewrite (on_disk_is d n f DN).
      assert (PR : pread f off HEADER = Some (enc_header h)) by (change HEADER with 512; rewrite <- (len_header h HL); apply pread_has; exact (proj1 C2)).
      rewrite PR. rewrite fix_header_ok, dec_header by assumption.
      set (g1 := pwrite g (fo + off) (enc_header (fix_fields fo (norm h)))).
      assert (D1 : write_chunk d o (fo + off) (enc_header (fix_fields fo (norm h))) o = Some g1) by now apply write_same.
      assert (D2 : write_chunk d o (fo + off) (enc_header (fix_fields fo (norm h))) n = Some f) by (rewrite write_other by assumption; exact DN).
      rewrite (fix_block_ok _ w h ps off hi D2 SV C3 C2).
      set (d2 := write_chunk _ o (fo + fld h ArrayBlockOffset) (block_fixed fo f h)). set (g2 := pwrite g1 (fo + fld h ArrayBlockOffset) (block_fixed fo f h)).
      assert (D3 : d2 o = Some g2) by (apply write_same; exact D1). assert (D4 : d2 n = Some f) by (unfold d2; rewrite write_other by assumption; exact D2).
      destruct (place w h ps off hi g SV C3 C2 ltac:(lia) GL) as [G1 [G2 G3]]. fold g1 in G1, G2, G3. fold g2 in G1, G2, G3.
      destruct (IH hi d2 g2 C6 SVS D4 D3 ltac:(lia) ltac:(lia) ltac:(lia)) as [d' [g' [R1 [R2 [R3 [R4 [R5 R6]]]]]]].
      exists d', g'. rewrite R1. split; [reflexivity|]. split; [exact R2|]. split.
      { intros m N. rewrite R3 by assumption. unfold d2. rewrite !write_other by assumption. reflexivity. }
      split; [lia|]. split.
      { intros p x H Q. apply R5; [apply G2; [assumption | left; lia] | lia]. }
      intros RAW SM. cbn [map ochain shift fst snd]. split; [lia|]. 
      destruct G3 as [ps' [S1 S2]]; [intros p x H Q; apply RAW; [assumption | lia] | lia |].
      exists (fix_fields fo (norm h)), ps', (fo + hi). split; [split; [|split; [exact S2 | lia]]|].
      + eapply stored_keep; [exact S1 | exact S2 |]. intros p x H Q1 Q2. apply R5; [assumption | lia].
      + apply R6; [|exact SM]. intros p x H Q. apply G2; [apply RAW; [assumption | lia] | right; lia].
  Qed.
End One.
