(** Reading back all the sections of a file; calls that succeed. *)
From Verif Require Import Base SdsModel SdsSpec SdsProofs Sds2Proofs Sds3Proofs Sds4Proofs Sds5Proofs Sds6Proofs.
Local Open Scope Z_scope.
Local Opaque le.

Lemma inv_len : forall k f w0 rest names doff dres h0 ps0 hi0, inv k f w0 rest names doff dres h0 ps0 hi0 -> 512 <= len f.
Proof.
  intros k f w0 rest names doff dres h0 ps0 hi0 INV. pose proof (d_len _ _ _ _ (i_de _ _ _ _ _ _ _ _ _ _ INV)) as HL0.
  assert (LH0 : len (enc_header h0) = 512) by (unfold len; rewrite length_enc_header by assumption; reflexivity).
  pose proof (has_le_len f 0 (enc_header h0) (proj1 (i_st _ _ _ _ _ _ _ _ _ _ INV)) ltac:(intro X; rewrite X in LH0; discriminate LH0)). lia.
Qed.
Lemma write_all_grows : forall k cs f f', codec_ok k -> 0 < len f -> write_all k (appended cs) (Some f) = Some (Some f') -> len f <= len f'.
Proof.
  intros k cs. induction cs as [|[[w name] es] cs IH]; intros f f' OK L E; cbn in E; [injection E as <-; lia|].
  destruct (write_file k w (Some name) es (Some f)) as [g|] eqn:W; [|discriminate E]. pose proof (write_grows k w name es f g OK L W) as G.
  eapply Z.le_trans; [exact G|]. apply IH; [assumption | lia | assumption].
Qed.
Lemma listed_listed : forall names x, listed (listed names ++ [x]) = listed names ++ [x].
Proof. intros [|n ns] x; reflexivity. Qed.

Lemma inv_all : forall k cs f f' w0 rest names doff dres h0 ps0 hi0, codec_ok k -> Forall (fun c => saveable k (call_winfo c) /\ nul_free (call_name c)) cs ->
  inv k f w0 rest names doff dres h0 ps0 hi0 -> write_all k (appended cs) (Some f) = Some (Some f') -> len f' < 2 ^ 62 ->
  exists offs doff' dres' h0' hi0', length offs = length cs
    /\ inv k f' w0 (rest ++ combine (map call_winfo cs) offs) (match cs with [] => names | _ => listed names ++ map call_name cs end) doff' dres' h0' ps0 hi0'.
Proof.
  intros k cs. induction cs as [|[[w name] es] cs IH]; intros f f' w0 rest names doff dres h0 ps0 hi0 OK SV INV E SM.
  - cbn in E. injection E as <-. exists [], doff, dres, h0, hi0. split; [reflexivity|]. cbn. rewrite app_nil_r. exact INV.
  - apply Forall_cons_iff in SV. destruct SV as [[SV NF] SVS]. cbn [call_winfo call_name] in SV, NF.
    cbn [appended map write_all] in E. destruct (write_file k w (Some name) es (Some f)) as [g|] eqn:WF; [|discriminate E].
    pose proof (inv_len _ _ _ _ _ _ _ _ _ _ INV) as LF. pose proof (write_grows k w name es f g OK ltac:(lia) WF) as G.
    pose proof (write_all_grows k cs g f' OK ltac:(lia) E) as G2.
    destruct (append_inv k w name es f g w0 rest names doff dres h0 ps0 hi0 OK SV NF INV WF ltac:(lia)) as [off [d1 [r1 [hh [hi1 INV2]]]]].
    destruct (IH g f' w0 _ _ _ _ _ _ _ OK SVS INV2 E SM) as [offs [d2 [r2 [h2 [hi2 [L2 I2]]]]]].
    exists (off :: offs), d2, r2, h2, hi2. split; [cbn; lia|]. cbn [map combine call_winfo call_name]. rewrite <- app_assoc in I2. cbn [app] in I2.
    destruct cs as [|c cs]; [exact I2|]. rewrite listed_listed, <- app_assoc in I2. exact I2.
Qed.

Lemma entries_ok : forall k f w0 rest names doff dres h0 ps0 hi0, len f < 2 ^ 62 -> inv k f w0 rest names doff dres h0 ps0 hi0 -> Forall nul_free names ->
  Forall (fun p => nul_free (fst p) /\ 0 <= snd p < 2 ^ 63) (entries names rest).
Proof.
  intros k f w0 rest names doff dres h0 ps0 hi0 SM INV NF. assert (B62 : 2 ^ 62 < 2 ^ 63) by reflexivity.
  apply Forall_forall. intros [nm2 o] IN. unfold entries in IN. pose proof (in_combine_l _ _ _ _ IN) as IL. pose proof (in_combine_r _ _ _ _ IN) as IR. cbn [fst snd].
  split; [exact (proj1 (Forall_forall _ _) NF nm2 IL)|]. destruct IR as [<- | IR]; [lia|]. apply in_map_iff in IR. destruct IR as [p [<- IP]].
  destruct (proj1 (Forall_forall _ _) (i_rest _ _ _ _ _ _ _ _ _ _ INV) p IP) as [hh [pp [hi [Q1 [[Q2 _] [Q3 _]]]]]]. pose proof (d_len _ _ _ _ Q3) as QL.
  assert (LQ : len (enc_header hh) = 512) by (unfold len; rewrite length_enc_header by assumption; reflexivity).
  pose proof (has_le_len f (snd p) (enc_header hh) Q2 ltac:(intro Y; rewrite Y in LQ; discriminate LQ)). lia.
Qed.

Lemma inv_sections : forall k f w0 rest names doff dres h0 ps0 hi0, len f < 2 ^ 62 -> inv k f w0 rest names doff dres h0 ps0 hi0 ->
  sections_of f 0 (norm h0) = Some (entries names rest).
Proof.
  intros k f w0 rest names doff dres h0 ps0 hi0 SM INV. pose proof (entries_ok k f w0 rest names doff dres h0 ps0 hi0 SM INV) as EO.
  pose proof (d_len _ _ _ _ (i_de _ _ _ _ _ _ _ _ _ _ INV)) as HL0. pose proof (i_dir _ _ _ _ _ _ _ _ _ _ INV) as IDIR.
  assert (B62 : 2 ^ 62 < 2 ^ 63) by reflexivity. unfold sections_of. cbn [Z.eqb andb].
  destruct names as [|n0 names'].
  - destruct IDIR as [-> [Z1 [Z2 Z3]]]. rewrite fld_norm8; [rewrite Z2; reflexivity | assumption | reflexivity | rewrite Z2; lia].
  - destruct IDIR as [D1 [D2 [D3 [D4 [D5 [D6 [D7 [D8 [D9 [D10 D11]]]]]]]]]]. set (names := n0 :: names') in *.
    pose proof (len_sections_pos (entries names rest)) as LS. pose proof (len_nonneg (BuildSections (entries names rest))) as LN.
    assert (LE : length (entries names rest) = length names) by (unfold entries; rewrite combine_length; cbn [length]; rewrite map_length; lia).
    assert (N1 : fld (norm h0) SectionBlockSize = len (BuildSections (entries names rest))) by (rewrite fld_norm8; [assumption | assumption | reflexivity | lia]).
    assert (N2 : fld (norm h0) SectionBlockOffset = doff) by (rewrite fld_norm8; [assumption | assumption | reflexivity | lia]).
    assert (N3 : fld (norm h0) SectionBlockCount = Z.of_nat (length names)) by (rewrite fld_norm8; [assumption | assumption | reflexivity | lia]).
    unfold ReadListSections. rewrite N1, N2, N3.
    destruct (Z.of_nat (length names) =? 0) eqn:Y; [apply Z.eqb_eq in Y; unfold names in Y; cbn [length] in Y; lia|]. cbn [negb].
    destruct (len (BuildSections (entries names rest)) =? 0) eqn:Z0; [apply Z.eqb_eq in Z0; rewrite LE in LS; cbn [length names] in LS; lia|].
    rewrite (pread_has _ _ _ D6). rewrite Nat2Z.id, <- LE, sections_round_trip; [reflexivity | now apply EO].
Qed.

Lemma sections_read : forall k w0 sec es0 cs f f', codec_ok k -> saveable k w0 -> fresh sec f -> name_ok sec ->
  Forall (fun c => saveable k (call_winfo c) /\ nul_free (call_name c)) cs ->
  write_all k ((w0, sec, es0) :: appended cs) f = Some (Some f') -> len f' < 2 ^ 62 ->
  exists c0 offs, read_file k f' 0 = Some c0 /\ restores w0 c0 /\ length offs = length cs /\ c_sections c0 = listing sec cs offs
    /\ Forall2 (fun c off => exists c', read_file k f' off = Some c' /\ restores (call_winfo c) c') cs offs.
Proof.
  intros k w0 sec es0 cs f f' OK SV FR NF SVS E SM. cbn [write_all] in E.
  destruct (write_file k w0 sec es0 f) as [g|] eqn:WF; [|discriminate E].
  assert (SG : len g < 2 ^ 62).
  { destruct (Z_le_gt_dec (len g) 0); [lia|]. pose proof (write_all_grows k cs g f' OK ltac:(lia) E). lia. }
  destruct (fresh_inv k w0 sec es0 f g OK SV FR NF WF SG) as [doff [dres [h0 [ps0 [hi0 INV]]]]].
  destruct (inv_all k cs g f' w0 [] _ doff dres h0 ps0 hi0 OK SVS INV E SM) as [offs [d2 [r2 [h2 [hi2 [L2 I2]]]]]]. cbn [app] in I2.
  pose proof (inv_sections _ _ _ _ _ _ _ _ _ _ SM I2) as SEC.
  destruct (read_section k f' 0 hi2 w0 h2 ps0 _ OK SV (i_de _ _ _ _ _ _ _ _ _ _ I2) (i_st _ _ _ _ _ _ _ _ _ _ I2) SEC) as [c0 [R1 [R2 R3]]].
  exists c0, offs. split; [assumption|]. split; [assumption|]. split; [assumption|]. split.
  - rewrite R3. unfold entries, listing, first_name. 
    assert (MS : map snd (combine (map call_winfo cs) offs) = offs).
    { clear -L2. revert offs L2. induction cs as [|c cs IH]; intros [|o offs] L2; try discriminate L2; [reflexivity|]. cbn in *. rewrite IH by lia. reflexivity. }
    rewrite MS. destruct sec as [name|]; destruct cs as [|c cs]; try reflexivity.
  - pose proof (i_rest _ _ _ _ _ _ _ _ _ _ I2) as RS. clear -OK SVS RS L2 SM. revert offs RS L2. induction cs as [|c cs IH]; intros [|o offs] RS L2; try discriminate L2; [constructor|].
    cbn [map combine] in RS. apply Forall_cons_iff in RS. destruct RS as [RS1 RS]. apply Forall_cons_iff in SVS. destruct SVS as [[SV NF] SVS].
    constructor; [|apply IH; [assumption | assumption | cbn in L2; lia]].
    destruct RS1 as [h [ps [hi [Q1 [Q2 [Q3 _]]]]]]. cbn [fst snd] in *.
    destruct (read_section k f' o hi (call_winfo c) h ps [] OK SV Q3 Q2) as [c' [A1 [A2 _]]].
    + unfold sections_of. replace (o =? 0) with false by (symmetry; apply Z.eqb_neq; lia). reflexivity.
    + exists c'. auto.
Qed.

(** ** A call with a complete schedule succeeds *)
Lemma forallb_done_ok : forall k w es f1 h, complete (length (w_arrays w)) es ->
  exists s, wrun k w es (WS f1 h (repeat (repeat 0 23) (length (w_arrays w))) (repeat WTodo (length (w_arrays w)))) = Some s
    /\ forallb (fun x => match x with WDone => true | _ => false end) (s_stat s) = true.
Proof.
  intros k w es f1 h CO. apply wrun_total; cbn [s_stat].
  - apply repeat_length.
  - intros t LT. rewrite nth_error_repeat by assumption. rewrite CO. apply Nat.ltb_lt in LT. rewrite LT. reflexivity.
  - intros t LE. rewrite CO. apply Nat.ltb_ge in LE. rewrite LE. reflexivity.
Qed.
Lemma meta_total : forall k w, codec_total k -> exists meta, (if w_comp w =? 1 then do y <- comp k (bound k (len (w_meta w))) (w_meta w); Some (if len y <? len (w_meta w) then y else w_meta w)
                else Some (w_meta w)) = Some meta.
Proof.
  intros k w T. destruct (w_comp w =? 1); [|eexists; reflexivity]. specialize (T (w_meta w)).
  destruct (comp k (bound k (len (w_meta w))) (w_meta w)) as [y|]; [|congruence]. eexists. reflexivity.
Qed.
Lemma fresh_succeeds : forall k w sec es f, codec_ok k -> codec_total k -> fresh sec f -> complete (length (w_arrays w)) es -> exists f', write_file k w sec es f = Some f'.
Proof.
  intros k w sec es f OK T FR CO. unfold write_file.
  assert (AP : (match sec, f with Some _, Some f => 0 <? len f | _, _ => false end) = false).
  { destruct sec, f; try reflexivity. cbn in FR. rewrite FR. reflexivity. }
  destruct (meta_total k w T) as [meta M].
  destruct (StartCompressedFile k w sec f) as [[f1 h]|] eqn:ST; [|unfold StartCompressedFile in ST; rewrite AP, M in ST; discriminate ST].
  assert (FO : fld h FileOffset = 0).
  { unfold StartCompressedFile in ST. rewrite AP, M in ST. cbn [andb] in ST. apply some_inj in ST. apply (f_equal snd) in ST. cbn [snd] in ST. rewrite <- ST. reflexivity. }
  destruct (forallb_done_ok k w es f1 h CO) as [s [R D]]. rewrite R, D.
  assert (WH : fld (s_head s) FileOffset = 0).
  { destruct (start_facts k w sec f f1 h OK ST) as [f0 [off [mt [MO [H1 [H2 H3]]]]]].
    pose proof (pad_nonneg _ (len_nonneg (BuildListInfo (w_names w)))) as P1. pose proof (pad_nonneg _ (len_nonneg mt)) as P2. pose proof (pad_nonneg (Z.of_nat (length (w_arrays w)) * BLOCK) ltac:(unfold BLOCK; lia)) as P3.
    assert (FF : fld h ArrayFirstOffset = 512 + off + pad (len (BuildListInfo (w_names w))) + pad (len mt) + pad (Z.of_nat (length (w_arrays w)) * BLOCK)) by (rewrite H1; reflexivity).
    assert (OZ : off = 0) by (rewrite H1 in FO; exact FO).
    assert (FM : fld h ArrayFirstOffset mod 512 = 0).
    { rewrite FF. repeat (apply mod_add; [|apply pad_mod]). rewrite OZ. reflexivity. }
    assert (I : exists offs, winv k w h f1 offs s).
    { refine (winv_run k w h f1 _ _ _ FM es (fun _ => 0) _ s (winv_start k w h f1 _ _ _) R); try (rewrite H1; reflexivity). rewrite FF. lia. }
    destruct I as [offs I]. rewrite (wi_head _ _ _ _ _ _ I) by discriminate. exact FO. }
  unfold EndCompressedFile. rewrite WH. destruct sec; eexists; reflexivity.
Qed.

Lemma append_succeeds : forall k w name es f w0 rest names doff dres h0 ps0 hi0, codec_ok k -> codec_total k -> complete (length (w_arrays w)) es ->
  inv k f w0 rest names doff dres h0 ps0 hi0 -> exists f', write_file k w (Some name) es (Some f) = Some f'.
Proof.
  intros k w name es f w0 rest names doff dres h0 ps0 hi0 OK T CO INV. pose proof (inv_len _ _ _ _ _ _ _ _ _ _ INV) as LF.
  pose proof (i_st _ _ _ _ _ _ _ _ _ _ INV) as IST. pose proof (i_de _ _ _ _ _ _ _ _ _ _ INV) as IDE. pose proof (d_len _ _ _ _ IDE) as HL0.
  assert (LH0 : len (enc_header h0) = 512) by (unfold len; rewrite length_enc_header by assumption; reflexivity).
  destruct (meta_total k w T) as [meta M].
  assert (RF : ReadFileHeader f 0 = Some (norm h0)) by (apply read_header; [exact HL0 | exact (d_magic _ _ _ _ IDE) | exact (d_version _ _ _ _ IDE) | exact (proj1 IST)]).
  assert (AP : (0 <? len f) = true) by (apply Z.ltb_lt; lia).
  unfold write_file.
  destruct (StartCompressedFile k w (Some name) (Some f)) as [[f1 h]|] eqn:ST; [|unfold StartCompressedFile in ST; rewrite AP, RF, M in ST; discriminate ST].
  destruct (forallb_done_ok k w es f1 h CO) as [s [R D]]. rewrite R, D.
  destruct (start_facts k w (Some name) (Some f) f1 h OK ST) as [f0 [off [mt [MO [H1 [H2 H3]]]]]].
  destruct H3 as [[_ [_ X]] | [nm [_ [EF [_ [EO _]]]]]]; [lia|]. injection EF as <-. pose proof (pad_ge (len f)) as PF.
  pose proof (pad_nonneg _ (len_nonneg (BuildListInfo (w_names w)))) as P1. pose proof (pad_nonneg _ (len_nonneg mt)) as P2. pose proof (pad_nonneg (Z.of_nat (length (w_arrays w)) * BLOCK) ltac:(unfold BLOCK; lia)) as P3.
  assert (FF : fld h ArrayFirstOffset = 512 + off + pad (len (BuildListInfo (w_names w))) + pad (len mt) + pad (Z.of_nat (length (w_arrays w)) * BLOCK)) by (rewrite H1; reflexivity).
  assert (FM : fld h ArrayFirstOffset mod 512 = 0).
  { rewrite FF. repeat (apply mod_add; [|apply pad_mod]). rewrite EO. apply mod_add; [reflexivity | apply pad_mod]. }
  assert (I : exists offs, winv k w h f1 offs s).
  { refine (winv_run k w h f1 _ _ _ FM es (fun _ => 0) _ s (winv_start k w h f1 _ _ _) R); try (rewrite H1; reflexivity). rewrite FF. lia. }
  destruct I as [offs I].
  assert (RH : ReadFileHeader (s_file s) 0 = Some (norm h0)).
  { apply read_header; [exact HL0 | exact (d_magic _ _ _ _ IDE) | exact (d_version _ _ _ _ IDE) |].
    apply (wi_old _ _ _ _ _ _ I); [change (first h) with (fld h ArrayFirstOffset); lia|]. rewrite H2.
    repeat (apply has_pwrite_other; [|lia|left; lia]). exact (proj1 IST). }
  unfold EndCompressedFile. rewrite RH. destruct (fld (s_head s) FileOffset =? 0); [eexists; reflexivity|].
  generalize (match ReadListSections (s_file s) (norm h0) with Some ss => (ss, fld (norm h0) SectionBlockCount) | None => ([([48], 0)], 1) end). intros [old cnt].
  destruct (fld (norm h0) SectionBlockReservedSize <? len (BuildSections (old ++ [(name, fld (s_head s) FileOffset)]))); eexists; reflexivity.
Qed.

Lemma next_succeeds : forall k w0 sec es0 cs f f' w name es, codec_ok k -> codec_total k -> saveable k w0 -> fresh sec f -> name_ok sec ->
  Forall (fun c => saveable k (call_winfo c) /\ nul_free (call_name c)) cs ->
  write_all k ((w0, sec, es0) :: appended cs) f = Some (Some f') -> len f' < 2 ^ 62 -> complete (length (w_arrays w)) es ->
  exists f2, write_file k w (Some name) es (Some f') = Some f2.
Proof.
  intros k w0 sec es0 cs f f' w name es OK T SV FR NF SVS E SM CO. cbn [write_all] in E.
  destruct (write_file k w0 sec es0 f) as [g|] eqn:WF; [|discriminate E].
  assert (SG : len g < 2 ^ 62).
  { destruct (Z_le_gt_dec (len g) 0); [lia|]. pose proof (write_all_grows k cs g f' OK ltac:(lia) E). lia. }
  destruct (fresh_inv k w0 sec es0 f g OK SV FR NF WF SG) as [doff [dres [h0 [ps0 [hi0 INV]]]]].
  destruct (inv_all k cs g f' w0 [] _ doff dres h0 ps0 hi0 OK SVS INV E SM) as [offs [d2 [r2 [h2 [hi2 [L2 I2]]]]]].
  eapply append_succeeds; eassumption.
Qed.
