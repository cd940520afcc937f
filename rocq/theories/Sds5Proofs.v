(** One call that writes a section. *)
From Verif Require Import Base SdsModel SdsSpec SdsProofs Sds2Proofs Sds3Proofs Sds4Proofs.
Local Open Scope Z_scope.
Local Opaque le.

Lemma has_empty_or : forall f g o x, has f o x -> (x <> [] -> has g o x) -> has g o x.
Proof. intros f g o x H K. destruct x as [|b x]; [apply has_nil; exact (proj1 H) | apply K; discriminate]. Qed.
Lemma pad_le_len : forall f o x, o mod 512 = 0 -> o <= pad (len f) -> has f o x -> o + pad (len x) <= pad (len f).
Proof.
  intros f o x M L H. destruct x as [|b x]; [change (pad (len [])) with 0; lia|].
  pose proof (has_le_len f o (b :: x) H ltac:(discriminate)) as E. apply pad_mono in E. rewrite pad_add in E by assumption. exact E.
Qed.

(* the metadata as it is in the file *)
Definition meta_ok (k : codec) (w : winfo) (meta : list Z) : Prop :=
  meta = w_meta w \/ (len meta < len (w_meta w) /\ decomp k meta = Some (w_meta w) /\ meta <> []).

Lemma start_facts : forall k w sec f f1 h, codec_ok k -> StartCompressedFile k w sec f = Some (f1, h) ->
  exists f0 off meta, meta_ok k w meta /\ h = FillFileHeader w off (len (BuildListInfo (w_names w))) (len meta)
    /\ f1 = pwrite (pwrite (pwrite f0 off (enc_header h)) (off + 512) (BuildListInfo (w_names w))) (off + 512 + pad (len (BuildListInfo (w_names w)))) meta
    /\ ((f0 = [] /\ off = 0 /\ match sec, f with Some _, Some g => len g = 0 | _, _ => True end)
        \/ (exists name, sec = Some name /\ f = Some f0 /\ 0 < len f0 /\ off = pad (len f0) /\ ReadFileHeader f0 0 <> None)).
Proof.
  intros k w sec f f1 h OK E. unfold StartCompressedFile in E.
  assert (G : forall f0 off (X : option (file * list Z)),
     match (if w_comp w =? 1 then match comp k (bound k (len (w_meta w))) (w_meta w) with Some y => Some (if len y <? len (w_meta w) then y else w_meta w) | None => None end else Some (w_meta w)) with
     | Some meta => Some (pwrite (pwrite (pwrite f0 off (enc_header (FillFileHeader w off (len (BuildListInfo (w_names w))) (len meta))))
          (fld (FillFileHeader w off (len (BuildListInfo (w_names w))) (len meta)) NameBlockOffset) (BuildListInfo (w_names w)))
          (fld (FillFileHeader w off (len (BuildListInfo (w_names w))) (len meta)) MetaBlockOffset) meta, FillFileHeader w off (len (BuildListInfo (w_names w))) (len meta))
     | None => None end = Some (f1, h) ->
     exists meta, meta_ok k w meta /\ h = FillFileHeader w off (len (BuildListInfo (w_names w))) (len meta)
       /\ f1 = pwrite (pwrite (pwrite f0 off (enc_header h)) (off + 512) (BuildListInfo (w_names w))) (off + 512 + pad (len (BuildListInfo (w_names w)))) meta).
  { clear E. intros f0 off _ E.
    destruct (w_comp w =? 1).
    - destruct (comp k (bound k (len (w_meta w))) (w_meta w)) as [y|] eqn:C; [|discriminate E].
      destruct (OK _ _ _ C) as [D NE]. exists (if len y <? len (w_meta w) then y else w_meta w).
      split; [destruct (len y <? len (w_meta w)) eqn:L; [right; apply Z.ltb_lt in L; auto | now left]|].
      injection E as <- <-. split; [reflexivity|].
      change (fld (FillFileHeader w off (len (BuildListInfo (w_names w))) (len (if len y <? len (w_meta w) then y else w_meta w))) NameBlockOffset) with (512 + off).
      change (fld (FillFileHeader w off (len (BuildListInfo (w_names w))) (len (if len y <? len (w_meta w) then y else w_meta w))) MetaBlockOffset) with (512 + off + pad (len (BuildListInfo (w_names w)))).
      rewrite (Z.add_comm 512 off). reflexivity.
    - exists (w_meta w). split; [now left|]. injection E as <- <-. split; [reflexivity|].
      change (fld (FillFileHeader w off (len (BuildListInfo (w_names w))) (len (w_meta w))) NameBlockOffset) with (512 + off).
      change (fld (FillFileHeader w off (len (BuildListInfo (w_names w))) (len (w_meta w))) MetaBlockOffset) with (512 + off + pad (len (BuildListInfo (w_names w)))).
      rewrite (Z.add_comm 512 off). reflexivity. }
  destruct sec as [name|].
  - destruct f as [f0|].
    + destruct (0 <? len f0) eqn:L.
      * apply Z.ltb_lt in L. destruct (ReadFileHeader f0 0) as [hh|] eqn:R; [|discriminate E]. cbn [andb] in E.
        destruct (G f0 (pad (len f0)) None E) as [meta [M [H1 H2]]]. exists f0, (pad (len f0)), meta. split; [exact M|]. split; [exact H1|]. split; [exact H2|].
        right. exists name. repeat split; try assumption. congruence.
      * apply Z.ltb_ge in L. pose proof (len_nonneg f0). cbn [andb] in E. destruct (G [] 0 None E) as [meta [M [H1 H2]]]. exists [], 0, meta. repeat (split; [assumption|]). left. repeat split; lia.
    + cbn [andb] in E. destruct (G [] 0 None E) as [meta [M [H1 H2]]]. exists [], 0, meta. repeat (split; [assumption|]). left. auto.
  - cbn [andb] in E. destruct (G [] 0 None E) as [meta [M [H1 H2]]]. exists [], 0, meta. repeat (split; [assumption|]). left. auto.
Qed.

(* fields that EndCompressedFile may change *)
Definition late (i : nat) : Prop := i = SectionBlockSize \/ i = SectionBlockOffset \/ i = SectionBlockCount \/ i = SectionBlockReservedSize \/ i = TimeStampUTCNanos.

Lemma section_written : forall k w off meta f0 f1 h offs s g h3, codec_ok k -> saveable k w -> meta_ok k w meta -> 0 <= off -> off mod 512 = 0 ->
  h = FillFileHeader w off (len (BuildListInfo (w_names w))) (len meta) ->
  f1 = pwrite (pwrite (pwrite f0 off (enc_header h)) (off + 512) (BuildListInfo (w_names w))) (off + 512 + pad (len (BuildListInfo (w_names w)))) meta ->
  winv k w h f1 offs s -> forallb (fun x => match x with WDone => true | _ => false end) (s_stat s) = true ->
  let last := fld (s_head s) ArrayFirstOffset + fld (s_head s) TotalArrayCompressedSize in
  (forall o x, has (s_file s) o x -> off + 512 <= o -> o + len x <= last -> has g o x) -> len (s_file s) <= len g ->
  length h3 = 33%nat -> (forall i, ~ late i -> fld h3 i = fld (s_head s) i) ->
  let f3 := pwrite (pwrite g off (enc_header h3)) (fld (s_head s) ArrayBlockOffset) (concat (map (enc block_layout) (s_blocks s))) in
  len f3 < 2 ^ 62 ->
  off + 512 <= last /\ last <= pad (len f3) /\ len g <= len f3
  /\ (forall o x, has g o x -> o + len x <= off \/ last <= o -> has f3 o x)
  /\ exists ps, stored f3 off last h3 ps /\ describes k w h3 ps.
Proof.
  intros k w off meta f0 f1 h offs s g h3 OK SV MO O0 OM -> -> I DONE last AG LG L3 SAME f3 SM.
  set (ns := BuildListInfo (w_names w)) in *. set (h := FillFileHeader w off (len ns) (len meta)) in *.
  set (f1 := pwrite (pwrite (pwrite f0 off (enc_header h)) (off + 512) ns) (off + 512 + pad (len ns)) meta) in *.
  destruct I.
  set (n := length (w_arrays w)) in *.
  set (mb := off + 512 + pad (len ns)) in *. set (ab := mb + pad (len meta)) in *. set (fst_ := ab + pad (Z.of_nat n * 128)) in *.
  assert (HF : first h = fst_). { unfold first, h, fst_, ab, mb. change (512 + off + pad (len ns) + pad (len meta) + pad (Z.of_nat n * 128) = off + 512 + pad (len ns) + pad (len meta) + pad (Z.of_nat n * 128)). lia. }
  assert (HA : fld (s_head s) ArrayBlockOffset = ab).
  { rewrite wi_head by discriminate. unfold h, ab, mb. change (512 + off + pad (len ns) + pad (len meta) = off + 512 + pad (len ns) + pad (len meta)). lia. }
  assert (HL : last = fst_ + fld (s_head s) TotalArrayCompressedSize).
  { unfold last. rewrite wi_head by discriminate. fold (first h). rewrite HF. reflexivity. }
  pose proof (pad_nonneg _ (len_nonneg ns)) as P1. pose proof (pad_nonneg _ (len_nonneg meta)) as P2. pose proof (pad_nonneg (Z.of_nat n * 128) ltac:(lia)) as P3.
  pose proof (pad_ge (len ns)) as G1. pose proof (pad_ge (len meta)) as G2. pose proof (pad_ge (Z.of_nat n * 128)) as G3.
  destruct wi_tc as [TC TM].
  (* every array is done *)
  assert (DN : forall t a, nth_error (w_arrays w) t = Some a -> nth_error (s_stat s) t = Some WDone).
  { intros t a EA. assert (T : (t < length (s_stat s))%nat) by (rewrite wi_stat; apply nth_error_Some; congruence).
    destruct (nth_error (s_stat s) t) as [x|] eqn:E; [|apply nth_error_None in E; lia].
    pose proof (proj1 (forallb_forall _ _) DONE x (nth_error_In _ _ E)). destruct x; [discriminate H | discriminate H | reflexivity]. }
  assert (STD : forall t a, nth_error (w_arrays w) t = Some a -> started s t) by (intros t a EA; exists WDone; split; [exact (DN t a EA) | reflexivity]).
  assert (CNT : countb begun (s_stat s) = n).
  { rewrite <- wi_stat. clear - DONE. induction (s_stat s) as [|x l IH]; [reflexivity|]. cbn [forallb] in DONE. apply andb_prop in DONE. destruct DONE as [D1 D2].
    destruct x; try discriminate D1. cbn [countb begun length]. rewrite IH by assumption. reflexivity. }
  assert (BL : Forall (fun b => length b = 23%nat) (s_blocks s)).
  { apply Forall_forall. intros b IN. apply In_nth_error in IN. destruct IN as [t E].
    assert (T : (t < n)%nat) by (rewrite <- wi_blocks; apply nth_error_Some; congruence).
    destruct (nth_error (w_arrays w) t) as [a|] eqn:EA; [|apply nth_error_None in EA; fold n in EA; lia].
    destruct (wi_place t a EA (STD t a EA)) as [_ [_ [_ E']]]. rewrite E in E'. injection E' as ->. apply length_fill_block. }
  set (bb := concat (map (enc block_layout) (s_blocks s))) in *.
  assert (LBB : len bb = Z.of_nat n * 128) by (unfold bb; rewrite len_blocks by assumption; rewrite wi_blocks; lia).
  assert (LH3 : len (enc_header h3) = 512) by (unfold len; rewrite length_enc_header by assumption; reflexivity).
  (* the final file *)
  assert (OUT : forall o x, has g o x -> o + len x <= off \/ last <= o -> has f3 o x).
  { intros o x H D. unfold f3. rewrite HA. apply has_pwrite_other; [apply has_pwrite_other; [assumption | lia |] | lia |]; rewrite ?LH3, ?LBB; lia. }
  assert (INN : forall o x, has g o x -> off + 512 <= o -> o + len x <= ab \/ fst_ <= o -> has f3 o x).
  { intros o x H D1 D2. unfold f3. rewrite HA. apply has_pwrite_other; [apply has_pwrite_other; [assumption | lia |] | lia |]; rewrite ?LH3, ?LBB; lia. }
  assert (LEN3 : len g <= len f3).
  { unfold f3. rewrite HA. eapply Z.le_trans; [|apply len_pwrite_ge; lia]. apply len_pwrite_ge. lia. }
  assert (HH3 : has f3 off (enc_header h3)).
  { unfold f3. rewrite HA. apply has_pwrite_other; [apply has_pwrite_same; lia | lia |]. rewrite LH3. lia. }
  assert (HBB : has f3 ab bb). { unfold f3. rewrite HA. apply has_pwrite_same. lia. }
  assert (HNS : has f3 (off + 512) ns).
  { apply INN; [|lia|lia]. apply AG; [|lia|lia]. apply wi_old; [rewrite HF; unfold fst_, ab, mb; lia|]. unfold f1. apply has_pwrite_other; [apply has_pwrite_same; lia | unfold mb; lia | unfold mb; lia]. }
  assert (HME : has f3 mb meta).
  { apply INN; [|unfold mb; lia|unfold ab; lia]. apply AG; [|unfold mb; lia|unfold fst_, ab in *; lia]. apply wi_old; [rewrite HF; unfold fst_, ab, mb; lia|]. unfold f1. apply has_pwrite_same. unfold mb; lia. }
  assert (HAR : forall t a, nth_error (w_arrays w) t = Some a -> has f3 (offs t) (bytes k w a) /\ fst_ <= offs t /\ offs t + pad (len (bytes k w a)) <= last /\ offs t mod 512 = 0).
  { intros t a EA. destruct (wi_place t a EA (STD t a EA)) as [Q1 [Q2 [Q3 _]]]. rewrite HF in *. rewrite <- HL in Q2.
    pose proof (pad_ge (len (bytes k w a))). split; [|auto]. apply INN; [| unfold fst_, ab, mb in *; lia | lia].
    apply AG; [exact (wi_done t a EA (DN t a EA)) | unfold fst_, ab, mb in *; lia | lia]. }
  (* the end of the file *)
  assert (OM2 : (off + 512) mod 512 = 0) by (apply mod_add; [assumption | reflexivity]).
  assert (LP0 : off + 512 <= pad (len f3)).
  { pose proof (has_le_len f3 off (enc_header h3) HH3 ltac:(intro X; rewrite X in LH3; discriminate LH3)). pose proof (pad_ge (len f3)). lia. }
  assert (LP1 : mb <= pad (len f3)) by (unfold mb; apply pad_le_len; assumption).
  assert (MM : mb mod 512 = 0) by (unfold mb; apply mod_add; [assumption | apply pad_mod]).
  assert (LP2 : ab <= pad (len f3)) by (unfold ab; apply pad_le_len; assumption).
  assert (AM : ab mod 512 = 0) by (unfold ab; apply mod_add; [assumption | apply pad_mod]).
  assert (LP3 : fst_ <= pad (len f3)) by (unfold fst_; rewrite <- LBB; apply pad_le_len; assumption).
  assert (LP4 : last <= pad (len f3)).
  { rewrite HL. destruct wi_end as [Z0 | [t [a [EA [_ [NE EQ]]]]]]; [lia|]. rewrite HF in EQ. rewrite <- EQ.
    destruct (HAR t a EA) as [R1 [R2 [R3 R4]]]. apply pad_le_len; [assumption | | assumption].
    pose proof (pad_ge (len f3)). pose proof (has_le_len f3 (offs t) (bytes k w a) R1 NE). pose proof (len_nonneg (bytes k w a)). lia. }
  assert (BIG : pad (len f3) < 2 ^ 63) by (pose proof (pad_ge (len f3)); change (2 ^ 62) with 4611686018427387904 in SM; change (2 ^ 63) with 9223372036854775808; lia).
  split; [unfold fst_, ab, mb in *; lia|]. split; [assumption|]. split; [assumption|]. split; [exact OUT|].
  exists ((off + 512, ns) :: (mb, meta) :: (ab, bb) :: map (fun t => (offs t, bytes k w (nth t (w_arrays w) dA))) (seq 0 n)).
  assert (NTH : forall t, (t < n)%nat -> nth_error (w_arrays w) t = Some (nth t (w_arrays w) dA)) by (intros t T; apply nth_error_nth'; exact T).
  split.
  - split; [exact HH3|]. constructor; [|constructor; [|constructor]]; cbn [fst snd].
    + split; [assumption|]. unfold fst_, ab, mb in *. lia.
    + split; [assumption|]. unfold fst_, ab, mb in *. lia.
    + split; [assumption|]. rewrite LBB. unfold fst_, ab, mb in *. lia.
    + apply Forall_forall. intros p IN. apply in_map_iff in IN. destruct IN as [t [<- IN]]. apply in_seq in IN. cbn [fst snd].
      destruct (HAR t _ (NTH t ltac:(lia))) as [R1 [R2 [R3 _]]]. pose proof (pad_ge (len (bytes k w (nth t (w_arrays w) dA)))). split; [exact R1|]. unfold fst_, ab, mb in *. lia.
  - assert (NL : forall i, ~ late i -> i <> ArraysWritten -> i <> TotalArrayCompressedSize -> i <> TotalArrayUncompressedSize -> fld h3 i = fld h i).
    { intros i N1 N2 N3 N4. rewrite SAME by assumption. now apply wi_head. }
    assert (E3 : fld h3 ArraysWritten = Z.of_nat n). { rewrite SAME by (unfold late; intros [X|[X|[X|[X|X]]]]; discriminate X). rewrite wi_count, CNT. reflexivity. }
    assert (F : forall i, In i [hMagic; hVersionHigh; NameBlockSize; NameBlockOffset; NameBlockCount; MetaBlockOffset; TotalMetaCompressedSize; TotalMetaUncompressedSize; ArrayBlockSize; ArrayBlockOffset] -> fld h3 i = fld h i).
    { intros i IN. cbn [In] in IN. apply NL; [unfold late | | |]; repeat (destruct IN as [<- | IN]; [(intros [X|[X|[X|[X|X]]]]; discriminate X) || discriminate |]); destruct IN. }
    assert (FO : fld h3 NameBlockOffset = off + 512) by (rewrite F by (cbn [In]; auto 12); change (512 + off = off + 512); lia).
    assert (FM : fld h3 MetaBlockOffset = mb) by (rewrite F by (cbn [In]; auto 12); change (512 + off + pad (len ns) = off + 512 + pad (len ns)); lia).
    assert (FA : fld h3 ArrayBlockOffset = ab) by (rewrite SAME by (unfold late; intros [X|[X|[X|[X|X]]]]; discriminate X); exact HA).
    assert (FS : fld h3 ArrayBlockSize = Z.of_nat n * 128) by (rewrite F by (cbn [In]; auto 12); reflexivity).
    assert (FN : fld h3 NameBlockSize = len ns) by (rewrite F by (cbn [In]; auto 12); reflexivity).
    assert (FC : fld h3 NameBlockCount = Z.of_nat (length (w_names w))) by (rewrite F by (cbn [In]; auto 12); reflexivity).
    assert (FT : fld h3 TotalMetaCompressedSize = len meta) by (rewrite F by (cbn [In]; auto 12); reflexivity).
    assert (FU : fld h3 TotalMetaUncompressedSize = len (w_meta w)) by (rewrite F by (cbn [In]; auto 12); reflexivity).
    constructor.
    + exact L3.
    + rewrite F by (cbn [In]; auto 12). reflexivity.
    + rewrite F by (cbn [In]; auto 12). reflexivity.
    + unfold used_fields. pose proof (len_nonneg ns). pose proof (len_nonneg meta). pose proof (len_nonneg (w_meta w)). pose proof (len_names_ge (w_names w)) as LN. fold ns in LN. pose proof (sv_meta k w SV).
      repeat constructor; rewrite ?FO, ?FM, ?FA, ?FS, ?FN, ?FC, ?FT, ?FU, ?E3; unfold fst_, ab, mb in *; lia.
    + exact FN.
    + exact FC.
    + rewrite FO. cbn [In]. auto.
    + exists meta. rewrite FT, FM. split; [reflexivity|]. split; [cbn [In]; auto | exact MO].
    + exact FU.
    + exact E3.
    + exact FS.
    + exists (s_blocks s). rewrite FA. split; [cbn [In]; auto|]. split; [exact wi_blocks|]. intros t a EA.
      destruct (wi_place t a EA (STD t a EA)) as [_ [_ [_ Q4]]]. destruct (HAR t a EA) as [R1 [R2 [R3 _]]].
      exists (offs t), (bytes k w a), (snd (fst (pk k w a))), (snd (pk k w a)). split; [apply pk_eta|]. split; [exact Q4|].
      assert (T : (t < n)%nat) by (apply nth_error_Some; congruence).
      split; [|pose proof (pad_ge (len (bytes k w a))) as PG; pose proof (len_nonneg (bytes k w a)); split; [lia|]; split; [|rewrite FS; unfold fst_ in R2; lia]].
      * cbn [In]. right. right. right. apply in_map_iff. exists t. split; [|apply in_seq; lia]. rewrite (nth_error_nth _ _ dA EA). reflexivity.
      * destruct (bytes k w a) as [|b bs] eqn:BE; [change (len []) with 0; lia|].
        pose proof (has_le_len f3 (offs t) (b :: bs) R1 ltac:(discriminate)). unfold fst_, ab, mb in *. lia.
    + rewrite FO, FN, FM, FT, FA. unfold ab, mb. lia.
Qed.
