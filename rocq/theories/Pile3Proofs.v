(** Putting files together. *)
From Verif Require Import Base SdsModel SdsSpec SdsProofs Sds2Proofs Sds3Proofs Sds4Proofs Sds5Proofs Sds6Proofs Sds7Proofs PileModel PileSpec PileProofs Pile2Proofs.
Local Open Scope Z_scope.
Local Opaque le.

Lemma pwrite_id : forall g o x, has g o x -> pwrite g o x = g.
Proof.
  intros g o x H. destruct x as [|b x]; [reflexivity|]. set (y := b :: x) in *. pose proof (has_le_len g o y H ltac:(discriminate)) as L. destruct H as [O H]. unfold len in L.
  apply list_ext. intro i. rewrite nth_error_pwrite by discriminate.
  destruct (Nat.ltb_spec i (Z.to_nat o)) as [A|A].
  - destruct (Nat.ltb_spec i (length g)); [reflexivity | lia].
  - destruct (Nat.ltb_spec i (Z.to_nat o + length y)) as [B|B]; [|reflexivity].
    destruct (nth_error y (i - Z.to_nat o)) as [v|] eqn:E; [|apply nth_error_None in E; lia]. apply H in E. rewrite <- E. f_equal. lia.
Qed.

Section Append.
  Context (k : codec) (f : file) (w0 : winfo) (rest : list (winfo * Z)) (names : list (list Z)) (doff dres : Z) (h0 : list Z) (ps0 : list piece) (hi0 : Z).
  Hypothesis INV : inv k f w0 rest names doff dres h0 ps0 hi0.
  Hypothesis SV0 : saveable k w0.
  Hypothesis SVS : Forall (fun p => saveable k (fst p)) rest.
  Hypothesis SM : len f < 2 ^ 62.

  Lemma head_len : length h0 = 33%nat. Proof. exact (d_len _ _ _ _ (i_de _ _ _ _ _ _ _ _ _ _ INV)). Qed.
  Lemma dir_fields : match names with
    | [] => rest = [] /\ fld (norm h0) SectionBlockOffset = 0 /\ fld (norm h0) SectionBlockCount = 0
    | _ => length names = S (length rest) /\ fld (norm h0) SectionBlockOffset <> 0 /\ fld (norm h0) SectionBlockCount = Z.of_nat (length names)
    end.
  Proof.
    pose proof head_len as HL. pose proof (i_dir _ _ _ _ _ _ _ _ _ _ INV) as D. pose proof (i_off _ _ _ _ _ _ _ _ _ _ INV) as OF. assert (B62 : 2 ^ 62 < 2 ^ 63) by reflexivity.
    destruct names as [|n0 names'].
    - destruct D as [D1 [D2 [D3 D4]]]. split; [exact D1|]. specialize (OF eq_refl).
      split; (rewrite fld_norm8; [assumption | assumption | reflexivity |]); rewrite ?OF, ?D3; lia.
    - destruct D as [D1 [D2 [D3 [D4 [D5 [D6 [D7 [D8 [D9 [D10 D11]]]]]]]]]]. set (nn := n0 :: names') in *.
      pose proof (len_sections_pos (entries nn rest)) as LS. pose proof (len_nonneg (BuildSections (entries nn rest))).
      assert (LE : length (entries nn rest) = length nn) by (unfold entries; rewrite combine_length; cbn [length]; rewrite map_length; lia).
      split; [exact D1|]. split; (rewrite fld_norm8; [ | assumption | reflexivity |]); rewrite ?D3, ?D4; lia.
  Qed.

  Lemma open_ok : forall d n, codec_ok k -> d n = Some f -> open_input k d n = (Some (Op n (enc_header h0) (entries names rest) (len f)), false).
  Proof.
    intros d n OK DN. unfold open_input. rewrite DN. pose proof head_len as HL. pose proof (i_st _ _ _ _ _ _ _ _ _ _ INV) as IST. pose proof (i_de _ _ _ _ _ _ _ _ _ _ INV) as IDE.
    assert (PR : pread f 0 HEADER = Some (enc_header h0)) by (change HEADER with 512; rewrite <- (len_header h0 HL); apply pread_has; exact (proj1 IST)).
    rewrite PR. rewrite (read_header f 0 h0 HL (d_magic _ _ _ _ IDE) (d_version _ _ _ _ IDE) (proj1 IST)).
    pose proof (inv_sections _ _ _ _ _ _ _ _ _ _ SM INV) as SEC.
    destruct (read_section k f 0 hi0 w0 h0 ps0 _ OK SV0 IDE IST SEC) as [c [R1 [R2 R3]]]. unfold read_file in R1.
    rewrite (read_header f 0 h0 HL (d_magic _ _ _ _ IDE) (d_version _ _ _ _ IDE) (proj1 IST)) in R1. unfold sections_of in SEC. cbn [Z.eqb andb] in SEC, R1.
    rewrite SEC in R1.
    replace (if fld (norm h0) SectionBlockCount =? 0 then Some [] else ReadListSections f (norm h0)) with (Some (entries names rest))
      by (rewrite <- SEC; destruct (fld (norm h0) SectionBlockCount =? 0); reflexivity).
    destruct (fld (norm h0) NameBlockSize =? 0).
    - destruct (pread f (fld (norm h0) ArrayBlockOffset) (fld (norm h0) ArrayBlockSize)); [|discriminate R1]. apply some_inj in R1. rewrite <- R1 in R2. destruct R2 as [_ [R2 _]]. cbn [c_meta] in R2. rewrite R2. reflexivity.
    - destruct (pread f (fld (norm h0) NameBlockOffset) (fld (norm h0) NameBlockSize)); [|discriminate R1].
      destruct (pread f (fld (norm h0) ArrayBlockOffset) (fld (norm h0) ArrayBlockSize)); [|discriminate R1]. apply some_inj in R1. rewrite <- R1 in R2. destruct R2 as [_ [R2 _]]. cbn [c_meta] in R2. rewrite R2. reflexivity.
  Qed.

  Lemma append_ok : forall d n o g fo, d n = Some f -> n <> o -> d o = Some g -> 0 <= fo -> len g <= fo ->
    exists d' g', AppendToFile d o (Op n (enc_header h0) (entries names rest) (len f)) fo = Some (d', fo :: map snd (map (shift fo) rest), fo + len f)
      /\ d' o = Some g' /\ (forall m, m <> o -> d' m = d m) /\ len g' = fo + len f
      /\ (forall p x, has g p x -> p + len x <= fo -> has g' p x)
      /\ (fo + pad (len f) < 2 ^ 63 -> exists ps', stored g' fo (fo + hi0) (fix_fields fo (norm h0)) ps' /\ describes k w0 (fix_fields fo (norm h0)) ps'
            /\ ochain k g' (fo + hi0) (fo + pad (len f)) (map (shift fo) rest)).
  Proof.
    intros d n o g fo DN NO DO F0 GL. pose proof head_len as HL. pose proof (inv_len _ _ _ _ _ _ _ _ _ _ INV) as L5.
    pose proof (i_st _ _ _ _ _ _ _ _ _ _ INV) as IST. pose proof (i_de _ _ _ _ _ _ _ _ _ _ INV) as IDE. pose proof (stored_hi _ _ _ _ _ _ _ IST IDE) as HI.
    unfold AppendToFile. cbn [op_head op_name op_secs op_size]. rewrite dec_header, fix_header_ok by assumption.
    set (hb := enc_header (fix_fields fo (norm h0))). assert (LF : length (fix_fields fo (norm h0)) = 33%nat) by (rewrite length_fix; apply length_norm).
    assert (LH : len hb = 512) by (apply len_header; exact LF). assert (HN : hb <> []) by (apply header_ne; exact LF).
    set (g1 := pwrite g fo hb). assert (D1 : write_chunk d o fo hb o = Some g1) by now apply write_same.
    assert (D2 : write_chunk d o fo hb n = Some f) by (rewrite write_other by assumption; exact DN).
    assert (G1 : len g1 = fo + 512) by (unfold g1; rewrite len_pwrite by assumption; lia).
    change HEADER with 512. 
    destruct (copy_ok f n o fo NO F0 (Z.to_nat (len f - 512)) _ g1 (len f - 512) 512 D2 D1 ltac:(lia) ltac:(lia) ltac:(lia) ltac:(lia) (Nat.le_refl _)) as [g2 [E1 [E2 [E3 [E4 E5]]]]].
    set (d2 := copy_rest _ _ n o _ _ _) in *. assert (D3 : d2 n = Some f) by (rewrite E2 by assumption; exact D2).
    rewrite (fix_block_ok k f n o fo d2 w0 h0 ps0 0 hi0 D3 SV0 IDE IST).
    (* what the copy holds *)
    assert (HG : has g2 fo hb).
    { split; [assumption|]. intros i v E. rewrite E5; [apply (proj2 (has_pwrite_same g fo hb F0)); exact E|].
      assert (i < length hb)%nat by (apply nth_error_Some; congruence). unfold len in LH. lia. }
    assert (RAW : forall p x, has f p x -> 0 + 512 <= p -> has g2 (fo + p) x).
    { intros p x [P0 H] Q. split; [lia|]. intros i v E. apply H in E. replace (Z.to_nat (fo + p) + i)%nat with (Z.to_nat fo + (Z.to_nat p + i))%nat by lia.
      rewrite E4; [exact E | lia | apply nth_error_Some; congruence]. }
    assert (OLD : forall p x, has g p x -> p + len x <= fo -> has g2 p x).
    { intros p x H Q. assert (H1 : has g1 p x) by (apply has_pwrite_other; [exact H | lia | left; lia]). destruct H1 as [P0 H1]. split; [assumption|]. intros i v E. pose proof (H1 _ _ E) as E'.
      rewrite E5; [exact E'|]. assert (i < length x)%nat by (apply nth_error_Some; congruence). unfold len in Q. lia. }
    destruct (place k f fo F0 w0 h0 ps0 0 hi0 g2 SV0 IDE IST ltac:(lia) ltac:(lia)) as [P1 [P2 P3]].
    rewrite Z.add_0_r in P1, P2, P3. fold hb in P1, P2, P3. rewrite (pwrite_id g2 fo hb HG) in P1, P2, P3.
    set (g3 := pwrite g2 (fo + fld h0 ArrayBlockOffset) (block_fixed fo f h0)) in *. set (d3 := write_chunk d2 o (fo + fld h0 ArrayBlockOffset) (block_fixed fo f h0)).
    assert (D4 : d3 o = Some g3) by (apply write_same; exact E1). assert (D5 : d3 n = Some f) by (unfold d3; rewrite write_other by assumption; exact D3).
    assert (D6 : forall m, m <> o -> d3 m = d m) by (intros m N; unfold d3; rewrite write_other, E2, write_other by assumption; reflexivity).
    destruct (fix_sections_ok k f n o fo NO F0 doff dres rest hi0 d3 g3 (i_chain _ _ _ _ _ _ _ _ _ _ INV) SVS D5 D4 ltac:(lia) (i_hi _ _ _ _ _ _ _ _ _ _ INV) ltac:(lia)) as [d4 [g4 [R1 [R2 [R3 [R4 [R5 R6]]]]]]].
    assert (FIN : fo + pad (len f) < 2 ^ 63 -> exists ps', stored g4 fo (fo + hi0) (fix_fields fo (norm h0)) ps' /\ describes k w0 (fix_fields fo (norm h0)) ps'
            /\ ochain k g4 (fo + hi0) (fo + pad (len f)) (map (shift fo) rest)).
    { intro SM2. pose proof (i_hi _ _ _ _ _ _ _ _ _ _ INV) as HI0. destruct (P3 RAW ltac:(lia)) as [ps' [S1 S2]]. exists ps'. split; [|split; [exact S2|]].
      - eapply stored_keep; [exact S1 | exact S2 |]. intros p x H Q1 Q2. apply R5; [assumption | lia].
      - apply R6; [|exact SM2]. intros p x H Q. apply P2; [apply RAW; [assumption | lia] | right; lia]. }
    assert (KEEP : forall p x, has g p x -> p + len x <= fo -> has g4 p x) by (intros p x H Q; apply R5; [apply P2; [apply OLD; assumption | left; lia] | lia]).
    assert (OTH : forall m, m <> o -> d4 m = d m) by (intros m N; rewrite R3 by assumption; now apply D6).
    pose proof dir_fields as DF. exists d4, g4. split.
    2:{ split; [exact R2|]. split; [exact OTH|]. split; [lia|]. split; [exact KEEP | exact FIN]. }
    destruct names as [|n0 names'].
    - destruct DF as [DR [DF1 DF2]]. rewrite DF1. cbn [Z.eqb]. rewrite DR in R1 |- *. cbn [map fix_sections] in R1. apply some_inj in R1. injection R1 as <-. reflexivity.
    - destruct DF as [DL [DF1 DF2]]. apply Z.eqb_neq in DF1. rewrite DF1, DF2.
      assert (LE : length (entries (n0 :: names') rest) = length (n0 :: names')) by (unfold entries; rewrite combine_length; cbn [length]; rewrite map_length; cbn [length] in DL; lia).
      rewrite LE, Z.eqb_refl. unfold entries. cbn [combine].
      replace (map snd (combine names' (map snd rest))) with (map snd rest).
      2:{ cbn [length] in DL. clear -DL. revert names' DL. induction rest as [|p r IH]; intros [|x names'] DL; try discriminate DL; [reflexivity|]. cbn [map combine length] in *. rewrite <- IH by lia. reflexivity. }
      rewrite R1. reflexivity.
  Qed.
End Append.

(** ** All the files *)
Section All.
  Context (k : codec) (o : fname).
  (* an open file whose sections are those of rest *)
  Definition ready (d : disk) (p : opened) (ws : list winfo) : Prop :=
    exists n f w0 rest names doff dres h0 ps0 hi0, p = Op n (enc_header h0) (entries names rest) (len f) /\ d n = Some f /\ n <> o
      /\ inv k f w0 rest names doff dres h0 ps0 hi0 /\ ws = w0 :: map fst rest /\ Forall (saveable k) ws /\ len f < 2 ^ 62.
  Lemma ready_other : forall d d' p ws, ready d p ws -> (forall m, m <> o -> d' m = d m) -> ready d' p ws.
  Proof.
    intros d d' p ws (n & f & w0 & rest & names & doff & dres & h0 & ps0 & hi0 & E & DN & NO & INV & EW & SV & SM) S.
    exists n, f, w0, rest, names, doff, dres, h0, ps0, hi0. rewrite S by assumption. auto 9.
  Qed.
  Lemma shift_fst : forall fo (rest : list (winfo * Z)), map fst (map (shift fo) rest) = map fst rest.
  Proof. intros. rewrite map_map. reflexivity. Qed.
  Lemma saveable_rest : forall w0 (rest : list (winfo * Z)), Forall (saveable k) (w0 :: map fst rest) -> saveable k w0 /\ Forall (fun p => saveable k (fst p)) rest.
  Proof. intros w0 rest F. apply Forall_cons_iff in F. destruct F as [F1 F2]. split; [exact F1|]. apply Forall_map. exact F2. Qed.

  Lemma append_all_ok : forall d0 ps wss d g fo, Forall2 (ready d0) ps wss -> (forall m, m <> o -> d m = d0 m) -> d o = Some g -> 0 <= fo -> fo mod 512 = 0 -> len g <= fo ->
    exists d' g' secs last, append_all d o ps fo = Some (d', map snd secs, last) /\ map fst secs = concat wss
      /\ d' o = Some g' /\ (forall m, m <> o -> d' m = d m) /\ len g' <= last /\ fo <= last
      /\ (forall p x, has g p x -> p + len x <= fo -> has g' p x)
      /\ (last < 2 ^ 63 -> ochain k g' fo last secs).
  Proof.
    intros d0 ps wss d g fo F. revert d g fo.
    induction F as [|p ws ps wss R F IH]; intros d g fo S0 DO F0 FM GL.
    - exists d, g, [], fo. cbn. split; [reflexivity|]. split; [reflexivity|]. split; [assumption|]. split; [reflexivity|]. split; [lia|]. split; [lia|]. split; [auto | lia].
    - apply (ready_other d0 d) in R; [|exact S0].
      destruct R as (n & f & w0 & rest & names & doff & dres & h0 & ps0 & hi0 & E & DN & NO & INV & EW & SV & SM). rewrite EW in SV. destruct (saveable_rest _ _ SV) as [SV0 SVS].
      destruct (append_ok k f w0 rest names doff dres h0 ps0 hi0 INV SV0 SVS SM d n o g fo DN NO DO F0 GL) as [d1 [g1 [A1 [A2 [A3 [A4 [A5 A6]]]]]]].
      pose proof (pad_ge (len f)) as PG. pose proof (len_nonneg f) as LN.
      cbn [append_all]. rewrite E, A1. rewrite pad_add by assumption.
      destruct (IH d1 g1 (fo + pad (len f)) ltac:(intros m N; rewrite A3 by assumption; now apply S0) A2 ltac:(lia)) as [d2 [g2 [secs [last [B1 [B2 [B3 [B4 [B5 [B6 [B7 B8]]]]]]]]]]].
      { rewrite Z.add_mod, FM, pad_mod by lia. reflexivity. }
      { lia. }
      rewrite B1. exists d2, g2, ((w0, fo) :: map (shift fo) rest ++ secs), last. split; [cbn [map snd]; rewrite map_app; reflexivity|].
      split; [cbn [map fst]; rewrite map_app, shift_fst, B2, EW; reflexivity|]. split; [exact B3|]. split; [intros m N; rewrite B4 by assumption; now apply A3|].
      split; [exact B5|]. split; [lia|]. split; [intros q x H Q; apply B7; [apply A5; assumption | lia]|]. intro SL.
      destruct (A6 ltac:(lia)) as [ps' [Q1 [Q2 Q3]]]. pose proof (ochain_le _ _ _ _ _ Q3) as QL. cbn [ochain fst snd]. split; [lia|]. exists (fix_fields fo (norm h0)), ps', (fo + hi0).
      split; [split; [|split; [exact Q2 | lia]]|].
      + eapply stored_keep; [exact Q1 | exact Q2 |]. intros q x H K1 K2. apply B7; [assumption | lia].
      + apply ochain_app with (fo + pad (len f)); [|apply B8; exact SL]. eapply ochain_keep; [exact Q3|]. intros q x H K1 K2. apply B7; assumption.
  Qed.

  Lemma count_ok : forall d ps wss c, Forall2 (ready d) ps wss -> fold_left (fun c p => c + section_count p) ps c = c + Z.of_nat (length (concat wss)).
  Proof.
    intros d ps wss c F. revert c. induction F as [|p ws ps wss R F IH]; intro c; [cbn; lia|]. cbn [fold_left concat]. rewrite IH, app_length.
    assert (S : section_count p = Z.of_nat (length ws)); [|lia].
    destruct R as (n & f & w0 & rest & names & doff & dres & h0 & ps0 & hi0 & -> & DN & NO & INV & -> & SV & SM). unfold section_count. cbn [op_head].
    rewrite dec_header by exact (d_len _ _ _ _ (i_de _ _ _ _ _ _ _ _ _ _ INV)). pose proof (dir_fields _ _ _ _ _ _ _ _ _ _ INV SM) as DF. cbn [length]. rewrite map_length.
    destruct names as [|n0 names']; [destruct DF as [-> [-> _]]; reflexivity|]. destruct DF as [DL [DF1 DF2]]. apply Z.eqb_neq in DF1. rewrite DF1, DF2, DL. reflexivity.
  Qed.

  Lemma zero_entries : forall (rest : list (winfo * Z)), entries (repeat [48] (S (length rest))) rest = map (fun e => ([48], e)) (0 :: map snd rest).
  Proof. intro rest. unfold entries. cbn [repeat combine map]. f_equal. induction rest as [|p r IH]; [reflexivity|]. cbn. now rewrite IH. Qed.
  Lemma len_zero_sections : forall es, len (BuildSections (map (fun e => ([48], e)) es)) = 10 * Z.of_nat (length es).
  Proof.
    induction es as [|e es IH]; [reflexivity|]. unfold BuildSections in *. cbn [map concat fst snd]. rewrite len_app, IH. cbn [length]. change (cstr [48]) with [48].
    assert (E : len ([48] ++ [0] ++ le 8 e) = 10) by (unfold len; rewrite !app_length, length_le; reflexivity). rewrite E. lia.
  Qed.
  Lemma ochain_chain : forall f' doff dres rest lo, ochain k f' lo doff rest -> 512 <= lo -> doff <= pad (len f') -> chain k f' doff dres lo rest.
  Proof.
    intros f' doff dres rest. induction rest as [|p r IH]; intros lo C L P; [exact Logic.I|]. destruct C as [C0 [h [ps [hi [[C1 [C2 C3]] C4]]]]]. pose proof (stored_hi _ _ _ _ _ _ _ C1 C2).
    split; [exact C0|]. exists h, ps, hi. split; [split; [lia|]; split; [exact C1|]; split; [exact C2|]; split; [lia | right; exact C3]|]. apply IH; [exact C4 | lia | exact P].
  Qed.

  Lemma concat_ok : forall d ps wss, Forall2 (ready d) ps wss -> ps <> [] ->
    exists d' f', SDSConcatFiles d o ps = Some d' /\ d' o = Some f' /\ (forall m, m <> o -> d' m = d m)
      /\ (len f' < 2 ^ 62 -> exists w0 rest doff dres h0 ps0 hi0, inv k f' w0 rest (repeat [48] (S (length rest))) doff dres h0 ps0 hi0 /\ concat wss = w0 :: map fst rest).
  Proof.
    intros d ps wss F NE. pose proof (count_ok d ps wss 0 F) as CT. rewrite Z.add_0_l in CT. destruct F as [|p ws ps wss R F]; [congruence|]. clear NE.
    unfold SDSConcatFiles. rewrite CT. set (d0 := put d o []).
    assert (S0 : forall m, m <> o -> d0 m = d m) by (intros; now apply put_other). assert (D0 : d0 o = Some []) by apply put_same.
    apply (ready_other d d0) in R; [|exact S0].
    destruct R as (n & f & w0 & rest & names & doff & dres & h0 & ps0 & hi0 & E & DN & NO & INV & EW & SV & SM). rewrite EW in SV. destruct (saveable_rest _ _ SV) as [SV0 SVS].
    destruct (append_ok k f w0 rest names doff dres h0 ps0 hi0 INV SV0 SVS SM d0 n o [] 0 DN NO D0 ltac:(lia) ltac:(cbn; lia)) as [d1 [g1 [A1 [A2 [A3 [A4 [A5 A6]]]]]]].
    pose proof (pad_ge (len f)) as PG. pose proof (len_nonneg f) as LN.
    cbn [append_all]. rewrite E, A1. rewrite !Z.add_0_l in *.
    assert (F' : Forall2 (ready d1) ps wss).
    { clear -F S0 A3. induction F as [|q v qs vs Q F IH]; constructor; [|exact IH]. apply (ready_other d); [exact Q|]. intros m N. rewrite A3 by assumption. now apply S0. }
    destruct (append_all_ok d1 ps wss d1 g1 (pad (len f)) F' ltac:(reflexivity) A2 ltac:(lia) (pad_mod _) ltac:(lia)) as [d2 [g2 [secs [last [B1 [B2 [B3 [B4 [B5 [B6 [B7 B8]]]]]]]]]]].
    rewrite B1. cbn [op_head]. rewrite dec_header by exact (d_len _ _ _ _ (i_de _ _ _ _ _ _ _ _ _ _ INV)).
    set (rest' := map (shift 0) rest ++ secs).
    assert (ES : (0 :: map snd (map (shift 0) rest)) ++ map snd secs = 0 :: map snd rest') by (unfold rest'; rewrite map_app; reflexivity). rewrite ES.
    assert (CW : concat ((w0 :: map fst rest) :: wss) = w0 :: map fst rest') by (unfold rest'; rewrite map_app, shift_fst, B2; reflexivity).
    rewrite EW. rewrite CW. clear CT. set (count := Z.of_nat (length (w0 :: map fst rest'))) in *.
    assert (CN : count = Z.of_nat (S (length rest'))) by (unfold count; cbn [length]; rewrite map_length; reflexivity).
    set (size := count * 10). set (ss := map (fun e => ([48], e)) (0 :: map snd rest')).
    assert (LS : len (BuildSections ss) = size) by (unfold ss, size; rewrite len_zero_sections; cbn [length]; rewrite map_length, CN; lia).
    pose proof (pad_ge size) as PS. assert (SP : 10 <= size) by (unfold size; lia).
    set (dir := directory ss (pad size)). assert (LD : len dir = pad size) by (apply len_directory; lia).
    assert (ND : dir <> []) by (intro X; rewrite X in LD; change (len []) with 0 in LD; lia).
    set (h2 := upd (set_section (fix_fields 0 (norm h0)) size last count (pad size)) StackType 1).
    assert (HL2 : length h2 = 33%nat) by (unfold h2; rewrite length_upd, length_set_section, length_fix; apply length_norm).
    assert (HB : enc header_layout h2 ++ skipn 208 (enc_header h0) = enc_header h2).
    { unfold enc_header. f_equal. apply skipn_app_len. rewrite length_enc by (rewrite (d_len _ _ _ _ (i_de _ _ _ _ _ _ _ _ _ _ INV)); reflexivity). reflexivity. }
    rewrite HB. pose proof (len_header h2 HL2) as LH2.
    assert (L5 : 512 <= len f) by (eapply inv_len; exact INV).
    set (g3 := pwrite g2 last dir). set (f' := pwrite g3 0 (enc_header h2)).
    assert (D3 : write_chunk d2 o last dir o = Some g3) by now apply write_same.
    exists (write_chunk (write_chunk d2 o last dir) o 0 (enc_header h2)), f'. split; [reflexivity|]. split; [now apply write_same|]. split.
    { intros m N. rewrite !write_other, B4, A3 by assumption. now apply S0. }
    intro SMF. assert (LG3 : len g3 = last + pad size) by (unfold g3; rewrite len_pwrite by (lia || assumption); rewrite LD; lia).
    assert (LF' : len f' = last + pad size) by (unfold f'; rewrite len_pwrite by (lia || (apply header_ne; exact HL2)); rewrite LH2; lia).
    assert (B62 : 2 ^ 62 < 2 ^ 63) by reflexivity.
    destruct (A6 ltac:(lia)) as [ps' [Q1 [Q2 Q3]]]. specialize (B8 ltac:(lia)).
    assert (KEEP : forall q x, has g2 q x -> 512 <= q -> q + len x <= last -> has f' q x).
    { intros q x H K1 K2. apply has_pwrite_other; [apply has_pwrite_other; [assumption | lia | left; lia] | lia | right; lia]. }
    pose proof (ochain_le _ _ _ _ _ Q3) as QL. pose proof (stored_hi _ _ _ _ _ _ _ Q1 Q2) as HI. pose proof (pad_ge (len f')) as PF.
    assert (OC : ochain k f' hi0 last rest').
    { unfold rest'. apply ochain_app with (pad (len f)).
      - eapply ochain_keep; [exact Q3|]. intros q x H K1 K2. apply KEEP; [apply B7; assumption | lia | lia].
      - eapply ochain_keep; [exact B8|]. intros q x H K1 K2. apply KEEP; [assumption | lia | lia]. }
    pose proof (ochain_chain f' last (pad size) rest' hi0 OC ltac:(lia) ltac:(lia)) as CH.
    exists w0, rest', last, (pad size), h2, ps', hi0. split; [|reflexivity].
    assert (ZE : entries (repeat [48] (S (length rest'))) rest' = ss) by apply zero_entries.
    destruct (set_section_fields (fix_fields 0 (norm h0)) size last count (pad size)) as [F1 [F2 [F3 F4]]]; [rewrite length_fix; apply length_norm|].
    constructor.
    - split; [apply has_pwrite_same; lia|]. destruct Q1 as [_ Q1]. eapply Forall_impl; [|exact Q1]. cbn beta. intros q [K1 [K2 K3]]. split; [|lia]. apply KEEP; [apply B7; [assumption | lia] | lia | lia].
    - apply describes_other with (fix_fields 0 (norm h0)); [exact Q2 | exact HL2 |]. intros i IN. unfold h2.
      assert (NI : ~ In i [StackType; SectionBlockSize; SectionBlockOffset; SectionBlockCount; SectionBlockReservedSize]).
      { intro X. unfold used_fields in IN. cbn [In] in IN, X. repeat (destruct IN as [<- | IN]; [repeat (destruct X as [X|X]; [discriminate X|]); destruct X|]). destruct IN. }
      cbn [In] in NI. rewrite fld_upd_neq by (intro X; apply NI; tauto). apply set_section_other; intro X; apply NI; rewrite X; tauto.
    - lia.
    - exact (chain_ok _ _ _ _ _ _ CH).
    - exact CH.
    - discriminate.
    - rewrite ZE. unfold h2. rewrite !fld_upd_neq by discriminate. rewrite F1, F2, F3, F4, LS, repeat_length. cbn [repeat].
      split; [reflexivity|]. split; [reflexivity|]. split; [reflexivity|]. split; [exact CN|]. split; [reflexivity|].
      split; [apply has_pwrite_other; [apply has_directory with (pad size); [lia|]; apply has_pwrite_same; lia | lia | right; lia]|].
      split; [lia|]. split; [lia|]. split; [lia|]. split; [lia|]. change ([48] :: repeat [48] (length rest')) with (repeat [48] (S (length rest'))).
      apply Forall_forall. intros x IN. apply repeat_spec in IN. subst x. repeat constructor. discriminate.
  Qed.
End All.
