(** Reading files through a mask. *)
From Verif Require Import Base MaskModel MaskSpec MaskProofs.
From Verif Require Import SdsModel SdsSpec SdsProofs Sds2Proofs SieveModel SieveSpec SieveProofs Sieve2Proofs.
Local Open Scope Z_scope.

Lemma land_zero : forall e m, (forall n, 0 <= n -> Z.testbit m n = true -> Z.testbit e n = false) -> Z.land e m = 0.
Proof.
  intros e m H. apply Z.bits_inj'. intros n N. rewrite Z.land_spec, Z.bits_0. destruct (Z.testbit m n) eqn:M; [|apply andb_false_r]. now rewrite (H n N M).
Qed.
Lemma filterable_column : forall ftype enum, filterable (fileTypeStackable ftype) enum = true <-> is_column ftype enum.
Proof.
  intros ftype enum. unfold filterable, is_column, fileTypeStackable, SDS_FLAGS_SCALAR, SDS_FLAGS_META, SDS_FLAGS_NESTED, SDS_FLAGS_ORIGINAL_CONTAINER.
  change (Z.lor 4 (Z.lor 16 8)) with 28. split.
  - intros H. apply andb_prop in H as [H S]. apply andb_prop in H as [H1 H2]. apply Z.eqb_eq in H1. apply negb_true_iff, Z.eqb_neq in H2.
    split; [apply orb_prop in S as [S | S]; [apply orb_prop in S as [S | S]|]; apply Z.eqb_eq in S; auto|].
    split; [destruct (Z.testbit enum 0) eqn:T; [reflexivity|]; exfalso; apply H2; apply land_zero; intros n N B; assert (n = 0) by (destruct n as [|p|p]; [lia | destruct p; discriminate B | lia]); now subst n|].
    assert (G : forall n, Z.testbit 28 n = true -> Z.testbit enum n = false).
    { intros n B. assert (E := f_equal (fun z => Z.testbit z n) H1). cbn beta in E. rewrite Z.land_spec, Z.bits_0, B, andb_true_r in E. exact E. }
    split; [|split]; apply G; reflexivity.
  - intros (F & B0 & B2 & B3 & B4). apply andb_true_intro. split; [apply andb_true_intro; split|].
    + apply Z.eqb_eq. apply land_zero. intros n N B. destruct (Z.le_gt_cases 5 n) as [G | G]; [rewrite (Z.bits_above_log2 28 n) in B; [discriminate B | lia | change (Z.log2 28) with 4; lia]|].
      assert (n = 0 \/ n = 1 \/ n = 2 \/ n = 3 \/ n = 4) as [-> | [-> | [-> | [-> | ->]]]] by lia; try assumption; discriminate B.
    + apply negb_true_iff, Z.eqb_neq. intro E. assert (E' := f_equal (fun z => Z.testbit z 0) E). cbn beta in E'. rewrite Z.land_spec, Z.bits_0, B0 in E'. discriminate E'.
    + destruct F as [-> | [-> | ->]]; reflexivity.
Qed.

(* one array of the file: the place in the list, the block *)
Definition one (h : list Z) (names : list (list Z * Z)) (bs : list (list Z)) (read : Z -> list Z -> option got) (t : nat) : option got :=
  match nth_error bs t with
  | Some b => if negb (fld h NameBlockSize =? 0) && (fld h NameBlockCount <=? Z.of_nat t) then Some GUndef else read (snd (nth t names ([], 0))) b
  | None => Some GUndef
  end.
Definition plain (k : codec) (f : file) (h : list Z) (bs : list (list Z)) (t : nat) : got :=
  match nth_error bs t with
  | Some b => if negb (fld h NameBlockSize =? 0) && (fld h NameBlockCount <=? Z.of_nat t) then GUndef else read_array k f b
  | None => GUndef
  end.
Lemma open_read : forall k f off c, read_file k f off = Some c -> exists h bs, open_section f off = Some (h, c_names c, bs) /\ file_type f off = fld h FileType /\
  c_arrays c = map (plain k f h bs) (seq 0 (Z.to_nat (fld h ArraysWritten))).
Proof.
  intros k f off c R. unfold read_file in R. unfold open_section, file_type. destruct (ReadFileHeader f off) as [h|]; [|discriminate R].
  destruct (if fld h NameBlockSize =? 0 then Some [] else _) as [names|]; [|discriminate R].
  destruct (if (off =? 0) && negb (fld h SectionBlockCount =? 0) then _ else Some []) as [secs|]; [|discriminate R].
  destruct (pread f (fld h ArrayBlockOffset) (fld h ArrayBlockSize)) as [bb|]; [|discriminate R].
  injection R as <-. cbn [c_names c_arrays]. eexists. eexists. split; [reflexivity|]. split; reflexivity.
Qed.
Lemma gather_ok : forall {X} (g : X -> option got) (Q : X -> got -> Prop) l, (forall x, In x l -> exists y, g x = Some y /\ Q x y) ->
  exists gs, gather (map g l) = Arrays gs /\ Forall2 Q l gs.
Proof.
  intros X g Q l. induction l as [|x l IH]; intros H; [exists []; split; [reflexivity | constructor]|].
  destruct (H x ltac:(now left)) as [y [E QY]]. destruct IH as [gs [G F]]; [intros z Hz; apply H; now right|].
  exists (y :: gs). split; [cbn [map gather]; now rewrite E, G | now constructor].
Qed.
Lemma forall2_nth : forall {X Y} (Q : X -> Y -> Prop) l l', Forall2 Q l l' -> length l' = length l /\ forall i x y, nth_error l i = Some x -> nth_error l' i = Some y -> Q x y.
Proof.
  intros X Y Q l l'. induction 1 as [|x y l l' H F [IH1 IH2]]; [split; [reflexivity | intros [|i]; discriminate]|].
  split; [cbn; now rewrite IH1|]. intros [|i] a b; cbn; [intros [= <-] [= <-]; assumption | apply IH2].
Qed.

Lemma each_ok : forall k f v off c read h bs, open_section f off = Some (h, c_names c, bs) -> file_type f off = fld h FileType ->
  c_arrays c = map (plain k f h bs) (seq 0 (Z.to_nat (fld h ArraysWritten))) ->
  (forall t b, In b bs -> ~ is_column (fld h FileType) (enum_at c t) -> nth_error (c_arrays c) t = Some (read_array k f b) -> read (enum_at c t) b = Some (read_array k f b)) ->
  (forall t b a, In b bs -> is_column (fld h FileType) (enum_at c t) -> nth_error (c_arrays c) t = Some (GArray a) -> read_array k f b = GArray a -> exists b', read (enum_at c t) b = Some (GArray b') /\ taken v a b') ->
  (forall t g, nth_error (c_arrays c) t = Some g -> is_column (fld h FileType) (enum_at c t) -> exists a, g = GArray a) ->
  exists gs, each (h, c_names c, bs) read = Arrays gs /\ all_masked v (fld h FileType) c gs.
Proof.
  intros k f v off c read h bs O FT CA NC YC GA. unfold each.
  destruct (gather_ok (one h (c_names c) bs read) (fun t g => masked v (fld h FileType) (enum_at c t) (plain k f h bs t) g) (seq 0 (Z.to_nat (fld h ArraysWritten)))) as [gs [G F]].
  - intros t IN. apply in_seq in IN.
    assert (NT : nth_error (c_arrays c) t = Some (plain k f h bs t)).
    { rewrite CA. rewrite (map_nth_error _ _ _ (d := t)); [reflexivity|]. rewrite (nth_error_nth' _ 0%nat) by (rewrite seq_length; lia). rewrite seq_nth by lia. f_equal. }
    unfold one, plain in *. destruct (nth_error bs t) as [b|] eqn:B.
    + destruct (negb (fld h NameBlockSize =? 0) && (fld h NameBlockCount <=? Z.of_nat t)).
      * exists GUndef. split; [reflexivity|]. split; [intros _ a; discriminate | reflexivity].
      * fold (enum_at c t). apply nth_error_In in B. destruct (filterable (fileTypeStackable (fld h FileType)) (enum_at c t)) eqn:FI.
        -- apply filterable_column in FI. destruct (GA t _ NT FI) as [a E]. rewrite E in NT. destruct (YC t b a B FI NT E) as [b' [R T]]. exists (GArray b'). split; [assumption|].
           split; [|intro; contradiction]. intros _ a' E'. rewrite E in E'. injection E' as <-. eauto.
        -- assert (NI : ~ is_column (fld h FileType) (enum_at c t)) by (intro X; apply filterable_column in X; congruence).
           exists (read_array k f b). split; [now apply NC with (t := t)|]. split; [intro; contradiction | reflexivity].
    + exists GUndef. split; [reflexivity|]. split; [intros _ a; discriminate | reflexivity].
  - exists gs. split; [exact G|]. apply forall2_nth in F as [L F]. split; [rewrite CA, map_length; assumption|].
    intros t g g' N N'. rewrite CA in N. assert (TL : (t < length (map (plain k f h bs) (seq 0 (Z.to_nat (fld h ArraysWritten)))))%nat) by (apply nth_error_Some; congruence). rewrite map_length, seq_length in TL.
    assert (NS : nth_error (seq 0 (Z.to_nat (fld h ArraysWritten))) t = Some t) by (rewrite (nth_error_nth' _ 0%nat) by (rewrite seq_length; lia); rewrite seq_nth by lia; f_equal).
    rewrite (map_nth_error _ _ _ NS) in N. injection N as <-. exact (F t t g' NS N').
Qed.

Section File.
Context (k : codec) (part : Z -> list Z -> list Z) (PK : part_ok k part).
Context (v : view Z) (MO : mask_ok v) (CT : contiguous v).
Notation mask := (read_contiguous v).

Lemma mask_sum : SumBooleanMask mask = Some (Z.of_nat (countb set mask)).
Proof. apply SumBooleanMask_ok. now apply mask_bytes. Qed.

Lemma fits_shrink : forall d r, 0 <= d -> fits v d -> shrink (Z.of_nat (countb set mask)) (d :: r) = Z.of_nat (length (positions v d)) :: r.
Proof.
  intros d r D0 [L | A]; cbn [shrink]; f_equal.
  - assert (CN : length (positions v d) = countb set mask) by (replace d with (Z.of_nat (Z.to_nat d)) by lia; apply positions_all; try assumption; lia).
    destruct (positions_le v MO CT (Z.to_nat d)) as [P _]. rewrite Z2Nat.id in P by lia. rewrite <- CN. destruct (Z.ltb_spec d (Z.of_nat (length (positions v d)))); lia.
  - assert (PD : length (positions v d) = Z.to_nat d).
    { unfold positions. rewrite <- (seq_length (Z.to_nat d) 0) at 2. f_equal. assert (IN : forall i, In i (seq 0 (Z.to_nat d)) -> is_true v i = true) by (intros i IN; apply in_seq in IN; apply A; lia).
      clear -IN. induction (seq 0 (Z.to_nat d)) as [|i l IH]; [reflexivity|]. cbn [filter]. rewrite (IN i) by now left. f_equal. apply IH. intros j J. apply IN. now right. }
    destruct (positions_le v MO CT (Z.to_nat d)) as [_ P]. rewrite Z2Nat.id in P by lia. rewrite PD in *. destruct (Z.ltb_spec d (Z.of_nat (countb set mask))); lia.
Qed.
Theorem file_masked : forall f off c, read_file k f off = Some c -> unambiguous f off ->
  columns_ok v (file_type f off) c (fun a => 0 < SdsModel.len (a_data a) /\ fits v (rows a)) -> (exists i, is_true v i = true) ->
  exists gs, decompress_file k part f off v = Arrays gs /\ all_masked v (file_type f off) c gs.
Proof.
  intros f off c R UA CO [i0 T0]. destruct (open_read _ _ _ _ R) as (h & bs & O & FT & CA). unfold decompress_file. rewrite mask_sum, O. rewrite FT in *.
  eapply each_ok; try eassumption.
  - intros t b IN NC NT. unfold read_array_masked. destruct (filterable _ _) eqn:FI; [apply filterable_column in FI; contradiction|]. now rewrite orb_true_r.
  - intros t b a IN C N RA. destruct (CO t _ N C) as (a' & [= <-] & ND & F & I & OR & LB & LV). destruct (a_dims a) as [|d r] eqn:AD; [congruence|].
    unfold rows in LV. rewrite AD in LV. cbn [hd] in LV.
    assert (D0 : 0 <= d) by (inversion F; assumption).
    rewrite <- AD in F. destruct (column_ok v MO CT k part f b a d r PK RA AD F I OR) as (SH & IT & (b' & FI & TK) & RB & _).
    { intros BC. eapply UA; eauto. }
    apply read_array_inv in RA as (NF & _ & LD & EA). unfold read_array_masked. rewrite NF. replace (filterable _ _) with true by (symmetry; now apply filterable_column). cbn [orb negb].
    assert (BD : block_dims b = d :: r) by (rewrite EA in AD; exact AD). rewrite BD, (fits_shrink d r D0 LV).
    assert (RP : 0 < d /\ 0 < product r * a_item a).
    { rewrite AD, product_cons in LD. rewrite AD in F. inversion F; subst. assert (0 <= product r) by now apply product_nonneg'. nia. }
    assert (CP : (0 < length (positions v d))%nat).
    { assert (IP : exists i, In i (positions v d)).
      { destruct LV as [LV | LV]; [exists i0 | exists 0%nat]; unfold positions; apply filter_In; (split; [apply in_seq | ]); try assumption; try (apply LV; lia); [|lia].
        unfold is_true in T0; apply andb_prop in T0 as [T0 _]; apply Nat.ltb_lt in T0; lia. }
      destruct IP as [i IP]. destruct (positions v d); [destruct IP | cbn; lia]. }
    rewrite RB.
    + exists b'. split; [|assumption]. now rewrite FI.
    + lia.
    + apply RP.
  - intros t g N C. destruct (CO t g N C) as (a & -> & _). eauto.
Qed.

Lemma first_block : forall c h bs f n, c_arrays c = map (plain k f h bs) (seq 0 (Z.to_nat (fld h ArraysWritten))) -> first_rows c n -> fld (hd [] bs) bDimensions = n /\ 0 < fld h ArraysWritten.
Proof.
  intros c h bs f n CA (a & N & ND & RW). rewrite CA in N. destruct (Z.to_nat (fld h ArraysWritten)) as [|m] eqn:M; [discriminate N|]. split; [|lia].
  cbn [seq map nth_error] in N. injection N as N. unfold plain in N. destruct bs as [|b bs]; [discriminate N|]. cbn [nth_error hd] in *.
  destruct (negb (fld h NameBlockSize =? 0) && _); [discriminate N|]. apply read_array_inv in N as (_ & _ & _ & E). rewrite E in ND, RW. unfold rows in RW. cbn [a_dims] in *.
  unfold block_dims in *. destruct (Z.to_nat (fld b bNDim)); [now contradiction ND|]. unfold fld. rewrite <- RW.
  replace (nth bDimensions b 0) with (nth 0 (skipn bDimensions b) 0).
  - unfold MAX_DIMS. destruct (skipn bDimensions b); reflexivity.
  - clear. generalize bDimensions as m. induction b as [|x b IH]; intros [|m]; try reflexivity. cbn [skipn nth]. apply IH.
Qed.

Lemma packet_never : forall f st m trues all enum b, read_packet k part f st (Some m) trues all enum b <> None.
Proof.
  intros f st m trues all enum b. unfold read_packet. destruct (_ || _); [discriminate|]. destruct (Z.eqb_spec (GetBytesPerRow (if filterable st enum then shrink trues (block_dims b) else block_dims b) (fld b bItemSize)) 0) as [E | NE]; [discriminate|].
  destruct (filterable st enum); [|discriminate].
  assert (DF : forall c u off row, DecompressWithFilter k part f c u off (GetBytesPerRow (shrink trues (block_dims b)) (fld b bItemSize)) m all row <> PCrash).
  { intros c u off row. unfold DecompressWithFilter. destruct (Z.eqb_spec (GetBytesPerRow (shrink trues (block_dims b)) (fld b bItemSize)) 0); [contradiction|]. cbn zeta.
    repeat match goal with |- (if ?x then _ else _) <> _ => destruct x | |- match ?x with Some _ => _ | None => _ end <> _ => destruct x end; discriminate. }
  assert (FB : forall ends i prev off bz usize row, filter_bands k part f ends i prev off (GetBytesPerRow (shrink trues (block_dims b)) (fld b bItemSize)) bz usize m all row <> PCrash).
  { induction ends as [|e ends IH]; intros i prev off bz usize row; [discriminate|]. cbn [filter_bands].
    destruct (Z.eqb_spec (GetBytesPerRow (shrink trues (block_dims b)) (fld b bItemSize)) 0); [contradiction|]. destruct (_ <=? row); [discriminate|].
    destruct (SumBooleanMask _) as [tc|]; [|discriminate].
    match goal with |- context [filter_bands k part f ends ?i ?p ?o ?bp ?bz ?u m all ?r] => pose proof (IH i p o bz u r) as X; destruct (filter_bands k part f ends i p o bp bz u m all r) end;
    destruct (tc =? 0); try congruence;
    match goal with |- context [DecompressWithFilter k part f ?c ?u ?o ?bp m all ?r] => pose proof (DF c u o r) as Y; destruct (DecompressWithFilter k part f c u o bp m all r) end; try congruence; try discriminate.
    destruct (_ =? _); discriminate. }
  assert (RF : read_block_filtered k part f b (shrink trues (block_dims b)) m all 0 None <> PCrash).
  { unfold read_block_filtered. destruct (0 <? fld b ArrayBandCount); [|apply DF]. destruct (pread _ _ _); [apply FB | discriminate]. }
  destruct (read_block_filtered _ _ _ _ _ _ _ _ _); [congruence | discriminate | discriminate].
Qed.

Lemma gather_never : forall {X} (g : X -> option got) l, (forall x, In x l -> g x <> None) -> exists gs, gather (map g l) = Arrays gs.
Proof.
  intros X g l H. destruct (gather_ok g (fun _ _ => True) l) as [gs [G _]]; [|eauto]. intros x IN. specialize (H x IN). destruct (g x); [eauto | congruence].
Qed.
Lemma each_never : forall o read, (forall e b, read e b <> None) -> exists gs, each o read = Arrays gs.
Proof.
  intros [[h names] bs] read H. unfold each. apply gather_never. intros t _. destruct (nth_error bs t); [|discriminate]. destruct (_ && _); [discriminate | apply H].
Qed.
Lemma count_some : forall fancy h bs, exists n, count_for_file fancy mask (Z.of_nat (countb set mask)) h bs = Some n.
Proof.
  intros. unfold count_for_file. destruct (_ && _); [|eauto]. rewrite SumBooleanMask_ok; [eauto|].
  pose proof (mask_bytes v MO CT) as B. set (n := Z.to_nat _). rewrite <- (firstn_skipn n mask) in B. now apply Forall_app in B.
Qed.

Theorem many_never_stops : forall fancy fs os, read_many k part fancy v fs = Some os -> length os = length fs /\ Forall (fun o => exists gs, o = Arrays gs) os.
Proof.
  intros fancy fs os R. unfold read_many in R. rewrite mask_sum in R. destruct (existsb _ _); [discriminate R|]. injection R as <-. split; [now rewrite !map_length|].
  apply Forall_forall. intros o IN. apply in_map_iff in IN as [[f s] [<- IN]]. apply in_map_iff in IN as [f' [[= <- <-] IN]]. cbn [fst snd].
  destruct (open_section f' 0) as [[[h names] bs]|]; [|eauto]. destruct (count_some fancy h bs) as [n ->]. destruct (each_never (h, names, bs) (read_packet k part f' (fileTypeStackable (fld h FileType)) (Some mask) n (Z.of_nat (countb set mask)))) as [gs G]; [intros; apply packet_never|].
  exists gs. exact G.
Qed.

Theorem many_masked : forall fancy fs os n f c, read_many k part fancy v fs = Some os -> nth_error fs n = Some f -> read_file k f 0 = Some c -> unambiguous f 0 -> arrays_ok c ->
  columns_ok v (file_type f 0) c (fun a => first_rows c (rows a)) ->
  exists gs, nth_error os n = Some (Arrays gs) /\ all_masked v (file_type f 0) c gs.
Proof.
  intros fancy fs os n f c R N RF UA AO CO. unfold read_many in R. rewrite mask_sum in R. destruct (existsb _ _) eqn:MM; [discriminate R|]. injection R as <-.
  destruct (open_read _ _ _ _ RF) as (h & bs & O & FT & CA). rewrite FT in *.
  assert (NO : nth_error (map (fun f => (f, open_section f 0)) fs) n = Some (f, Some (h, c_names c, bs))) by (rewrite (map_nth_error _ _ _ N), O; reflexivity).
  assert (MIS : mask_mismatch fancy (SdsModel.len mask) h bs = false).
  { apply not_true_iff_false. intro B. apply not_true_iff_false in MM. apply MM. apply existsb_exists. eexists. split; [eapply nth_error_In; exact NO|]. exact B. }
  rewrite (map_nth_error _ _ _ NO). cbn [snd fst]. destruct (count_some fancy h bs) as [tr CF]. rewrite CF.
  destruct (each_ok k f v 0 c (read_packet k part f (fileTypeStackable (fld h FileType)) (Some mask) tr (Z.of_nat (countb set mask))) h bs O FT CA) as [gs [G AM]].
  - intros t b IN NC NT. unfold read_packet. destruct (filterable _ _) eqn:FI; [apply filterable_column in FI; contradiction|].
    destruct ((fld b bNDim =? 0) || _) eqn:NF; [reflexivity|]. destruct (Z.eqb_spec (GetBytesPerRow (block_dims b) (fld b bItemSize)) 0) as [Z0 | NZ]; [|reflexivity].
    assert (AB := proj1 (Forall_forall _ _) AO _ (nth_error_In _ _ NT)). destruct (read_array k f b) as [| | |a] eqn:RA; try contradiction.
    + unfold read_array in RA. apply orb_false_iff in NF as [NF1 NF2]. rewrite NF1, NF2 in RA. destruct (read_block k f b _); [|discriminate RA]. destruct (_ <? _); [discriminate RA|]. destruct (_ <? _); discriminate RA.
    + destruct AB as (ND & FA & IA). apply read_array_inv in RA as (_ & _ & LD & EA). assert (BD : a_dims a = block_dims b) by now rewrite EA. assert (IT : a_item a = fld b bItemSize) by now rewrite EA.
      rewrite BD, IT in *. assert (P0 : product (block_dims b) * fld b bItemSize = 0).
      { destruct (block_dims b) as [|d r]; [congruence|]. unfold GetBytesPerRow in Z0. cbn [fld nth] in Z0. rewrite product_cons in *. inversion FA; subst. destruct (Z.ltb_spec 0 d); [|replace d with 0 by lia; lia].
        rewrite (Z.mul_comm d (product r)), Z.div_mul in Z0 by lia. nia. }
      assert (DE : a_data a = []) by (destruct (a_data a); [reflexivity | unfold SdsModel.len in LD; cbn [length] in LD; lia]).
      unfold finished. rewrite P0. change (SdsModel.len []) with 0. rewrite Z.ltb_irrefl. rewrite EA at 1. now rewrite DE.
  - intros t b a IN C NT RA. destruct (CO t _ NT C) as (a' & [= <-] & ND & F & I & OR & FR). destruct (a_dims a) as [|d r] eqn:AD; [congruence|].
    unfold rows in FR. rewrite AD in FR. cbn [hd] in FR. destruct (first_block _ _ _ _ _ CA FR) as [FB AW].
    assert (D0 : 0 <= d) by (inversion F; assumption).
    assert (CN : tr = Z.of_nat (length (positions v d))).
    { unfold count_for_file in CF. rewrite FB in CF. replace (fld h ArraysWritten =? 0) with false in CF by (symmetry; apply Z.eqb_neq; lia). cbn [negb andb] in CF.
      replace d with (Z.of_nat (Z.to_nat d)) by lia. rewrite positions_count by assumption.
      destruct (match fancy with Some b => b | None => true end) eqn:FA.
      - rewrite SumBooleanMask_ok in CF by (pose proof (mask_bytes v MO CT) as B; rewrite <- (firstn_skipn (Z.to_nat (if SdsModel.len mask <? d then SdsModel.len mask else d)) mask) in B; now apply Forall_app in B).
        injection CF as <-. f_equal. f_equal. destruct (Z.ltb_spec (SdsModel.len mask) d) as [X | X]; [|reflexivity]. unfold SdsModel.len in *. now rewrite !firstn_all2 by lia.
      - destruct fancy as [[|]|]; try discriminate FA. injection CF as <-. f_equal. f_equal. unfold mask_mismatch in MIS. rewrite FB in MIS. replace (0 <? fld h ArraysWritten) with true in MIS by (symmetry; now apply Z.ltb_lt).
        cbn [andb negb] in MIS. apply orb_false_iff in MIS as [_ MIS]. apply negb_false_iff, Z.eqb_eq in MIS. unfold SdsModel.len in MIS. rewrite firstn_all2 by lia. reflexivity. }
    subst tr. rewrite <- AD in F. destruct (column_ok v MO CT k part f b a d r PK RA AD F I OR) as (SH & IT & (b' & FI & TK) & RB & EM).
    { intros BC. eapply UA; eauto. }
    exists b'. split; [|assumption]. apply read_array_inv in RA as (NF & _ & LD & _). unfold read_packet. replace (filterable _ _) with true by (symmetry; now apply filterable_column).
    rewrite NF, SH, IT. cbn zeta. rewrite AD in F. pose proof (product_nonneg' r (Forall_inv_tail F)) as PR.
    destruct (Z.eqb_spec (GetBytesPerRow (Z.of_nat (length (positions v d)) :: r) (a_item a)) 0) as [Z0 | NZ].
    + unfold GetBytesPerRow in Z0. cbn [fld nth] in Z0. rewrite EM in FI; [now rewrite FI|]. destruct (Z.ltb_spec 0 (Z.of_nat (length (positions v d)))); [right | left; lia].
      rewrite product_cons, (Z.mul_comm (Z.of_nat _) (product r)), Z.div_mul in Z0 by lia. assumption.
    + unfold GetBytesPerRow in NZ. cbn [fld nth] in NZ. destruct (Z.ltb_spec 0 (Z.of_nat (length (positions v d)))); [|congruence].
      rewrite product_cons, (Z.mul_comm (Z.of_nat _) (product r)), Z.div_mul in NZ by lia. rewrite RB; [now rewrite FI | assumption | nia].
  - intros t g N' C. destruct (CO t g N' C) as (a & -> & _). eauto.
  - exists gs. split; [f_equal; exact G | assumption].
Qed.
End File.
