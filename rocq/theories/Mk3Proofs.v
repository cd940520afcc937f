(** Proofs about the MultiKey functions from their arguments to their results. *)
From Verif Require Import Base Mem MemLemmas AllModel All4Proofs EaModel EaSpec LxModel LxSpec Lx3Proofs SortSpec.
From Verif Require Import HashModel HashSpec HashProofs HashMember HashGroup HashLinks HashLinks2.
From Verif Require Import MkModel MkSpec MkProofs Mk2Proofs.
Local Open Scope Z_scope.

Lemma kind_width core w kt : (core = 11 -> w = 4) -> (core = 12 -> w = 8) -> kind core w = Some kt -> width kt = 8 * w.
Proof.
  unfold kind. destruct (core =? 11) eqn:E; [intros H _ [= <-]; rewrite H by lia; reflexivity|].
  destruct (core =? 12) eqn:E'; [intros _ H [= <-]; rewrite H by lia; reflexivity|]. intros _ _.
  destruct (Z.eq_dec w 1) as [->|]; [intros [= <-]; reflexivity|]. destruct (Z.eq_dec w 2) as [->|]; [intros [= <-]; reflexivity|].
  destruct (Z.eq_dec w 4) as [->|]; [intros [= <-]; reflexivity|]. destruct (Z.eq_dec w 8) as [->|]; [intros [= <-]; reflexivity|].
  intros H. exfalso. destruct w as [|p|p]; try discriminate. do 4 (try (destruct p as [p|p|]); try discriminate; try congruence).
Qed.
Lemma kind_narrow core w kt : kind core w = Some kt -> kt = Item1 \/ kt = Item2 -> (core = 11 -> w = 4) -> (core = 12 -> w = 8) -> w = 1 \/ w = 2.
Proof. intros H HK H1 H2. pose proof (kind_width core w kt H1 H2 H) as Q. destruct HK as [-> | ->]; cbn [width] in Q; lia. Qed.

Section Call.
  Context (n : Z) (cols : list key_column) (filter : param bool) (OK : call_ok n cols filter).
  Notation rows := (map (flat cols) (seq 0 (Z.to_nat n))).

  Lemma n_range : 0 <= n < 68719476731.
  Proof using OK. exact (proj1 OK). Qed.
  Lemma table_length : length (table n cols) = Z.to_nat n.
  Proof using. unfold table. now rewrite map_length, seq_length. Qed.
  Lemma len_rows : Z.of_nat (length rows) = n.
  Proof using OK. rewrite map_length, seq_length. pose proof n_range. lia. Qed.
  Lemma flat_table : rows = map (@concat Z) (table n cols).
  Proof using. unfold table. rewrite map_map. reflexivity. Qed.
  Lemma keyed_on {K} (f : list (list Z) -> K) : with_filter (map f (table n cols)) (mask_vals filter) = map (on_key f) (keyed n cols filter).
  Proof using OK.
    unfold table. rewrite map_map. rewrite (with_filter_right n cols filter OK (fun i => f (row_at cols i))). unfold keyed. rewrite map_map. reflexivity.
  Qed.
  Lemma keyed_in f x : In x (map fst (keyed n cols f)) -> exists i, (i < Z.to_nat n)%nat /\ x = row_at cols i.
  Proof using. unfold keyed. rewrite map_map. intros H. apply in_map_iff in H as (i & <- & H). apply in_seq in H. exists i. split; [lia|reflexivity]. Qed.
  Lemma concat_once x y : In x (map fst (keyed n cols filter)) -> In y (map fst (keyed n cols filter)) -> concat x = concat y -> x = y.
  Proof using OK. intros Hx Hy E. apply keyed_in in Hx as (i & Hi & ->), Hy as (j & Hj & ->). exact (flat_inj n cols filter OK i j Hi Hj E). Qed.
  Lemma number_once x y : In x (map fst (keyed n cols filter)) -> In y (map fst (keyed n cols filter)) -> number (concat x) = number (concat y) -> x = y.
  Proof using OK.
    intros Hx Hy E. apply concat_once; [exact Hx|exact Hy|]. apply keyed_in in Hx as (i & Hi & ->), Hy as (j & Hj & ->).
    eapply number_inj; [exact (flat_item n cols filter OK i Hi)|exact (flat_item n cols filter OK j Hj)|exact E].
  Qed.
  Lemma numbers_table : map number rows = map (fun r => number (concat r)) (table n cols).
  Proof using. rewrite flat_table, map_map. reflexivity. Qed.
  Lemma numbers_bits core kt : (core = 11 -> total_size cols = 4) -> (core = 12 -> total_size cols = 8) -> kind core (total_size cols) = Some kt -> bits (width kt) (map number rows).
  Proof using OK.
    intros H1 H2 HK x Hx. rewrite (kind_width core (total_size cols) kt H1 H2 HK). apply in_map_iff in Hx as (r & <- & Hr). apply in_map_iff in Hr as (i & <- & Hi). apply in_seq in Hi.
    apply number_range, (flat_item n cols filter OK). lia.
  Qed.
  Lemma small_keys {K} (f : list (list Z) -> K) size : ~ fewer_than size (map f (table n cols)) -> ~ fewer_than size (table n cols).
  Proof using. intros H C. apply H. now apply fewer_map. Qed.
  Lemma entries_range hint : 0 <= hint < 68719476731 -> 0 <= entries hint n < 68719476731.
  Proof using OK. intros H. unfold entries. destruct (hint =? 0); [exact n_range|exact H]. Qed.
  Lemma hint_room hint m : hint_fine hint (table n cols) -> fewer_than (AllocMemory m false (entries hint n)) (table n cols).
  Proof using OK.
    intros [-> | (H & U & HU & L)]; unfold entries.
    - rewrite Z.eqb_refl. apply fewer_length. rewrite table_length. pose proof (alloc_gt m false n n_range). pose proof n_range. lia.
    - rewrite (proj2 (Z.eqb_neq _ _)) by lia. exists U. split; [exact HU|]. pose proof (alloc_gt m false hint ltac:(lia)). lia.
  Qed.
  Lemma hint_room' hint m : hint <> 0 -> hint_fine hint (table n cols) -> fewer_than (AllocMemory m false hint) (table n cols).
  Proof using OK. intros N H. pose proof (hint_room hint m H) as Q. unfold entries in Q. now rewrite (proj2 (Z.eqb_neq _ _) N) in Q. Qed.
  Lemma hint_fine_range hint : hint_fine hint (table n cols) -> 0 <= hint < 68719476731.
  Proof using. intros [-> | (H & _)]; lia. Qed.
  Lemma hint_fine_ok hint : 0 <= hint < 68719476731 -> hint_ok hint = true.
  Proof using. intros H. unfold hint_ok. rewrite (proj2 (Z.leb_le _ _)), (proj2 (Z.ltb_lt _ _)); [reflexivity| |lia]. assert (68719476731 < 2 ^ 63) by reflexivity. lia. Qed.

  Section Group.
    Context (crc : Z -> Z) (crc_bytes : list Z -> Z) (m : hash_mode) (hint core : Z).
    Context (HH : 0 <= hint < 68719476731) (H11 : core = 11 -> total_size cols = 4) (H12 : core = 12 -> total_size cols = 8).
    Context (HM : total_size cols = 1 \/ total_size cols = 2 -> m = MASK).
    Lemma whole_right :
      okt (~ fewer_than (AllocMemory m false (entries hint n)) (table n cols)) (fun r => grouped (keyed n cols filter) (fst r) (snd r))
        (match kind core (total_size cols) with
         | Some kt => GroupByInternal crc kt m hint (map number rows) (mask_vals filter)
         | None => GroupByInternal_rows crc_bytes m hint rows (mask_vals filter)
         end).
    Proof using OK HH H11 H12 HM.
      pose proof (entries_range hint HH) as HE. destruct (kind core (total_size cols)) as [kt|] eqn:HK.
      - pose proof (numbers_bits core kt H11 H12 HK) as HB. rewrite numbers_table in *.
        eapply okt_weaken; [apply GroupByInternal_ok|..]; rewrite ?map_length, ?table_length, ?Z2Nat.id by (pose proof n_range; lia); try lia; [exact HB| | |].
        + intros Q. apply HM. eapply kind_narrow; eauto.
        + apply small_keys.
        + intros r G. rewrite keyed_on in G. exact (grouped_on _ _ number_once _ _ G).
      - rewrite flat_table. eapply okt_weaken; [apply GroupByInternal_rows_ok|..]; rewrite ?map_length, ?table_length, ?Z2Nat.id by (pose proof n_range; lia); try lia.
        + apply small_keys.
        + intros r G. rewrite keyed_on in G. exact (grouped_on _ _ concat_once _ _ G).
    Qed.
    Lemma parts_right ord cut : fair ord -> cuts 0 cut n ->
      okt (hint <> 0 /\ ~ fewer_than (AllocMemory m false hint) (table n cols)) (fun r => grouped_parts cut (keyed n cols filter) (fst (fst r)) (snd (fst r)) (snd r))
        (match kind core (total_size cols) with
         | Some kt => GroupByPartitioned (GroupByInternal crc kt m hint) ord cut (map number rows) (mask_vals filter)
         | None => GroupByPartitioned (GroupByInternal_rows crc_bytes m hint) ord cut rows (mask_vals filter)
         end).
    Proof using OK HH H11 H12 HM.
      intros HF HC. pose proof n_range as HN. destruct (filter_read n cols filter OK) as (_ & _ & FL). destruct (kind core (total_size cols)) as [kt|] eqn:HK.
      - pose proof (numbers_bits core kt H11 H12 HK) as HB. rewrite numbers_table in *.
        eapply okt_weaken; [apply GroupByPartitioned_ok|..]; rewrite ?map_length, ?table_length, ?Z2Nat.id by lia; try lia; [exact HF|exact HB| | |exact HC| |].
        + intros Q. apply HM. eapply kind_narrow; eauto.
        + intros f E. exact (FL f E).
        + intros (N & Q). split; [exact N|]. revert Q. apply small_keys.
        + intros r G. rewrite keyed_on in G. exact (grouped_parts_on _ _ _ _ _ _ number_once G).
      - rewrite flat_table. eapply okt_weaken; [apply GroupByPartitioned_rows_ok|..]; rewrite ?map_length, ?table_length, ?Z2Nat.id by lia; try lia; [exact HF| |exact HC| |].
        + intros f E. exact (FL f E).
        + intros (N & Q). split; [exact N|]. revert Q. apply small_keys.
        + intros r G. rewrite keyed_on in G. exact (grouped_parts_on _ _ _ _ _ _ concat_once G).
    Qed.
  End Group.

  Lemma mode_right mode : mode_fine mode cols -> exists m, mode_of mode = Some m /\ (total_size cols = 1 \/ total_size cols = 2 -> m = MASK).
  Proof using.
    intros [-> | [-> | (-> & N1 & N2)]]; [exists MASK|exists MASK|exists PRIME]; (split; [reflexivity|]); [reflexivity|reflexivity|]. intros [Q|Q]; contradiction.
  Qed.
  Definition index_type : Z := if n <=? 2100000000 then 5 else 7.
  Lemma type_right : (if 2100000000 <? n then 7 else 5) = index_type.
  Proof using. unfold index_type. destruct (Z.leb_spec n 2100000000), (Z.ltb_spec 2100000000 n); lia || reflexivity. Qed.

  Section GroupBy32.
    Context (crc : Z -> Z) (crc_bytes : list Z -> Z) (ord : sched) (hint : Z) (mode : option Z) (HH : 0 <= hint < 68719476731) (HM : mode_fine mode cols).
    Lemma whole_call cutoffs : not_given cutoffs -> forall r, MultiKeyGroupBy32 crc crc_bytes ord cols hint filter mode cutoffs = r ->
      (exists idx first, r = Done (index_type, idx, Whole first, Z.of_nat (length first)) /\ grouped (keyed n cols filter) idx first) \/
      (r = Error /\ ~ hint_fine hint (table n cols)).
    Proof using OK HH HM.
      intros NC r <-. destruct (prepare_right n cols filter OK) as (core & EP & H11 & H12). destruct (mode_right mode HM) as (m & EM & MN).
      unfold MultiKeyGroupBy32. rewrite (hint_fine_ok hint HH), EP. cbn [negb AllModel.obind p_rows p_object p_core p_width p_filter]. rewrite len_rows, type_right.
      assert (read_cutoffs n cutoffs = Done None) as -> by (destruct NC as [-> | ->]; reflexivity). cbn [AllModel.obind]. rewrite EM.
      pose proof (whole_right crc crc_bytes m hint core HH H11 H12 MN) as Q. cbn [negb].
      destruct (match kind core (total_size cols) with Some kt => GroupByInternal crc kt m hint (map number rows) (mask_vals filter) | None => GroupByInternal_rows crc_bytes m hint rows (mask_vals filter) end)
        as [[idx first]| |]; cbn [okt fst snd] in Q.
      - left. eauto.
      - right. split; [reflexivity|]. intros C. exact (Q (hint_room hint m C)).
      - contradiction.
    Qed.
    Lemma cuts_right : forall cut a k, SortSpec.cutoffs_ok a k cut -> cuts a cut k.
    Proof using. induction cut as [|c l IH]; intros a k H; cbn [SortSpec.cutoffs_ok cuts] in *; [exact H|]. destruct H as (H & R). split; [exact H|now apply IH]. Qed.
    Lemma parts_call a : fair ord -> cutoffs_given n a -> hint_fine hint (table n cols) ->
      exists idx first counts, MultiKeyGroupBy32 crc crc_bytes ord cols hint filter mode (PArray a) = Done (index_type, idx, Parts first counts, Z.of_nat (length first)) /\
        grouped_parts (arg_vals 0 a) (keyed n cols filter) idx first counts.
    Proof using OK HH HM.
      intros HF HC HT. destruct (prepare_right n cols filter OK) as (core & EP & H11 & H12). destruct (mode_right mode HM) as (m & EM & MN).
      unfold MultiKeyGroupBy32. rewrite (hint_fine_ok hint HH), EP. cbn [negb AllModel.obind p_rows p_object p_core p_width p_filter]. rewrite len_rows, type_right.
      rewrite (cut_read n a HC). cbn [AllModel.obind]. rewrite EM. cbn [negb].
      assert (C : cuts 0 (arg_vals 0 a) n) by (apply cuts_right; apply HC).
      pose proof (parts_right crc crc_bytes m hint core HH H11 H12 MN ord _ HF C) as Q.
      assert (LA : length (arg_vals 0 a) <> O). { destruct HC as (_ & L & _). unfold arg_vals. rewrite map_length, seq_length. lia. }
      destruct (arg_vals 0 a) as [|c l]; [now elim LA|].
      destruct (match kind core (total_size cols) with Some kt => GroupByPartitioned (GroupByInternal crc kt m hint) ord (c :: l) (map number rows) (mask_vals filter)
                | None => GroupByPartitioned (GroupByInternal_rows crc_bytes m hint) ord (c :: l) rows (mask_vals filter) end) as [[[idx first] counts]| |]; cbn [okt fst snd] in Q.
      - eauto 6.
      - exfalso. destruct Q as (N & Q). exact (Q (hint_room' hint m N HT)).
      - contradiction.
    Qed.
  End GroupBy32.

  Lemma kept_rows : incl (map fst (List.filter snd (with_filter rows (mask_vals filter)))) rows.
  Proof using.
    intros x Hx. apply in_map_iff in Hx as ((y, b) & <- & Hy). apply filter_In in Hy as (Hy & Eb). cbn in Eb. subst b. apply In_nth_error in Hy as (i & Hi).
    apply (kept_filter rows (mask_vals filter) i y Hi).
  Qed.
  Lemma rows_room size : fewer_than size (table n cols) -> fewer_than size rows.
  Proof using. intros H. rewrite flat_table. now apply fewer_map. Qed.
  Lemma hashes crc_bytes m hint : 0 <= hint < 68719476731 -> 0 <= AllocMemory m false (entries hint n) /\ forall x, 0 <= row_hash crc_bytes (AllocMemory m false (entries hint n)) x < AllocMemory m false (entries hint n).
  Proof using OK.
    intros HH. pose proof (alloc_pos m false _ (proj2 (entries_range hint HH))) as P. split; [lia|]. intros x. unfold row_hash. now apply mask_range.
  Qed.
  Lemma rows_on : with_filter rows (mask_vals filter) = map (on_key (@concat Z)) (keyed n cols filter).
  Proof using OK. rewrite flat_table. exact (keyed_on (@concat Z)). Qed.

  Lemma unique_call crc_bytes hint : 0 <= hint < 68719476731 -> forall r, MultiKeyUnique32 crc_bytes cols hint filter = r ->
    (exists idx first count, r = Done (Some (if n <? 2100000000 then 5 else 7, first, count)) /\ grouped (keyed n cols filter) idx first /\ sizes idx first count) \/
    (r = Done None /\ ~ hint_fine hint (table n cols)).
  Proof using OK.
    intros HH r <-. destruct (prepare_right n cols filter OK) as (core & EP & _). destruct (hashes crc_bytes MASK hint HH) as (P & HX).
    unfold MultiKeyUnique32. rewrite (hint_fine_ok hint HH), EP. cbn [negb AllModel.obind p_rows p_filter]. rewrite len_rows.
    pose proof (uniq_ok bytes_eqb bytes_eqb_eq (row_hash crc_bytes) (with_filter rows (mask_vals filter)) (AllocMemory MASK false (entries hint n)) P (fun i x _ => HX x)) as Q.
    destruct (Unique _ _ _ _) as [[first count]| |]; cbn [okt fst snd] in Q.
    - left. destruct Q as (idx & G & Z). rewrite rows_on in G. exists idx, first, count. split; [reflexivity|]. split; [exact (grouped_on _ _ concat_once _ _ G)|exact Z].
    - right. split; [reflexivity|]. intros C. apply Q. eapply fewer_incl; [exact kept_rows|]. apply rows_room, hint_room, C.
    - contradiction.
  Qed.
  Lemma super_call crc_bytes hint mode : n <= 2100000000 -> hint_fine hint (table n cols) -> mode = None \/ mode = Some 1 \/ mode = Some 2 ->
    exists idx next first count, MultiKeyGroupBy32Super crc_bytes cols hint filter mode = Done (idx, next, first, count) /\
      grouped (keyed n cols filter) idx first /\ HashSpec.column idx (next_row idx) next /\ sizes idx first count.
  Proof using OK.
    intros H31 HT HM. pose proof (hint_fine_range hint HT) as HH. destruct (prepare_right n cols filter OK) as (core & EP & _).
    assert (exists m, mode_of mode = Some m) as (m & EM) by (destruct HM as [-> | [-> | ->]]; eexists; reflexivity). destruct (hashes crc_bytes m hint HH) as (P & HX).
    unfold MultiKeyGroupBy32Super. rewrite (hint_fine_ok hint HH), EP. cbn [negb AllModel.obind p_rows p_filter p_object]. rewrite len_rows, EM.
    assert ((2 ^ 31 <=? n) = false) as -> by (apply Z.leb_gt; assert (2100000000 < 2 ^ 31) by reflexivity; lia). cbn [orb].
    pose proof (super_ok bytes_eqb bytes_eqb_eq (row_hash crc_bytes) (with_filter rows (mask_vals filter)) (AllocMemory m false (entries hint n)) P (fun i x _ => HX x)) as Q.
    destruct (GroupBySuper _ _ _ _) as [[[[idx next] first] count]| |]; cbn [okt fst snd] in Q.
    - rewrite (proj2 (Z.ltb_ge _ _)) by lia. exists idx, next, first, count. split; [reflexivity|]. destruct Q as (G & R). split; [|exact R]. rewrite rows_on in G. exact (grouped_on _ _ concat_once _ _ G).
    - exfalso. apply Q. eapply fewer_incl; [exact kept_rows|]. apply rows_room, hint_room, HT.
    - contradiction.
  Qed.
  Lemma hash_call crc_bytes d hint : n < 2100000000 -> hint_fine hint (table n cols) ->
    exists idx run bkt prev next first lst, MultiKeyHashCall crc_bytes d cols hint filter = Done (idx, run, bkt, prev, next, first, lst) /\
      (exists f, grouped (keyed n cols PNone) idx f) /\ HashSpec.column idx (running idx) run /\ HashSpec.column idx (group_size idx) bkt /\
      HashSpec.column idx (prev_row idx) prev /\ HashSpec.column idx (next_row idx) next /\ HashSpec.column idx (group_first idx) first /\ HashSpec.column idx (group_last idx) lst.
  Proof using OK.
    intros H31 HT. pose proof (hint_fine_range hint HT) as HH. destruct (prepare_right n cols filter OK) as (core & EP & _). destruct (hashes crc_bytes MASK hint HH) as (P & HX).
    unfold MultiKeyHashCall. rewrite (hint_fine_ok hint HH), EP. cbn [negb AllModel.obind p_rows p_filter p_object]. rewrite len_rows, (proj2 (Z.leb_gt _ _)) by lia. cbn [orb].
    pose proof (MultiKeyHash_ok bytes_eqb bytes_eqb_eq (row_hash crc_bytes) d (AllocMemory MASK false (entries hint n)) rows (mask_vals filter) P (fun x _ => HX x)) as Q.
    destruct (MultiKeyHash _ _ _ _ _ _) as [[[[[[[idx run] bkt] prev] next] first] lst]| |]; cbn [okt] in Q.
    - exists idx, run, bkt, prev, next, first, lst. split; [reflexivity|]. destruct Q as ((f & G) & R). split; [|exact R]. exists f.
      assert (OK' : call_ok n cols PNone) by (destruct OK as (A & B & C & _); exact (conj A (conj B (conj C Logic.I)))).
      apply (grouped_on (@concat Z)).
      + intros x y Hx Hy E. apply keyed_in in Hx as (i & Hi & ->), Hy as (j & Hj & ->). exact (flat_inj n cols PNone OK' i j Hi Hj E).
      + replace (map (on_key (concat (A:=Z))) (keyed n cols PNone)) with (all_kept rows); [exact G|]. unfold all_kept, keyed. rewrite !map_map. reflexivity.
    - exfalso. apply Q, rows_room, hint_room, HT.
    - contradiction.
  Qed.
End Call.

(** ** Calls that are refused *)
Lemma one_column m c : 0 <= m -> column_ok m c -> exists i, read_column c = Done i /\ i_items i = items c /\ length (items c) = Z.to_nat m.
Proof.
  intros Hm. destruct c as [|size a|]; cbn [column_ok]; try contradiction. intros (HD & _ & _ & HA & H1 & _).
  cbn [read_column items]. unfold known_type. rewrite (proj2 (Z.leb_le 0 _)), (proj2 (Z.leb_le _ 20)) by lia. cbn [andb].
  rewrite (Bn2Proofs.mlp_right [] m a Hm HA H1). cbn [AllModel.obind]. eexists. split; [reflexivity|]. split; [reflexivity|]. exact (Ea2Proofs.arg_vals_length [] m a HA).
Qed.
Lemma bad_column c : bad_key c -> read_column c = Error.
Proof.
  intros [-> | (size & a & -> & H)]; [reflexivity|]. cbn [read_column]. unfold known_type. destruct (0 <=? a_dtype a) eqn:E1, (a_dtype a <=? 20) eqn:E2; try reflexivity. lia.
Qed.
Lemma columns_refused cols filter : columns_bad cols -> prepare cols filter = Error.
Proof.
  intros (F & B). unfold prepare. enough (each read_column cols = Error \/ exists first rest, each read_column cols = Done (first :: rest) /\ exists i, In i rest /\ length (i_items i) <> length (i_items first)) as Q.
  { destruct Q as [E | (first & rest & E & i & Hi & L)].
    - rewrite E. now destruct filter.
    - rewrite E. cbn [AllModel.obind]. cbv zeta. replace (forallb (fun i => Nat.eqb (length (i_items i)) (length (i_items first))) rest) with false; [now destruct filter|].
      symmetry. apply not_true_is_false. intros T. rewrite forallb_forall in T. specialize (T i Hi). apply Nat.eqb_eq in T. contradiction. }
  destruct B as [(c & Hc & B) | (c & c' & Hc & Hc' & L)].
  - left. apply (each_no_undef read_column cols c); [|exact Hc|exact (bad_column c B)]. intros y Hy. rewrite Forall_forall in F.
    destruct (F y Hy) as [(m & Hm & OK) | Q]; [destruct (one_column m y Hm OK) as (i & -> & _)|rewrite (bad_column y Q)]; discriminate.
  - destruct (Exists_dec bad_key cols) as [X|X].
    { intros x. destruct x as [|size a|]; [right|destruct (Z_le_dec 0 (a_dtype a)), (Z_le_dec (a_dtype a) 20)|left; now left].
      - intros [Q | (? & ? & Q & _)]; discriminate.
      - right. intros [Q | (? & ? & [= <- <-] & Q)]; [discriminate|lia].
      - left. right. exists size, a. split; [reflexivity|lia].
      - left. right. exists size, a. split; [reflexivity|lia].
      - left. right. exists size, a. split; [reflexivity|lia]. }
    + left. apply Exists_exists in X as (x & Hx & B). apply (each_no_undef read_column cols x); [|exact Hx|exact (bad_column x B)]. intros y Hy. rewrite Forall_forall in F.
      destruct (F y Hy) as [(m & Hm & OK) | Q]; [destruct (one_column m y Hm OK) as (i & -> & _)|rewrite (bad_column y Q)]; discriminate.
    + right. assert (exists infos, each read_column cols = Done infos /\ map i_items infos = map items cols) as (infos & E & EI).
      { clear Hc Hc' L c c'. induction cols as [|c l IH]; [exists []; now split|]. inversion F as [|? ? H Fl]; subst.
        destruct H as [(m & Hm & OK) | Q]; [|elim X; now left]. destruct (one_column m c Hm OK) as (i & E & EI & _).
        destruct (IH Fl) as (is & Es & EIs); [intros Y; apply X; now right|]. exists (i :: is). cbn [each]. rewrite E. cbn [AllModel.obind]. rewrite Es. split; [reflexivity|]. cbn [map]. now rewrite EI, EIs. }
      destruct infos as [|first rest]; [destruct cols; [destruct Hc|discriminate]|]. exists first, rest. split; [exact E|].
      assert (forall c, In c cols -> exists i, In i (first :: rest) /\ i_items i = items c) as W.
      { intros z Hz. apply (in_map items) in Hz. rewrite <- EI in Hz. apply in_map_iff in Hz as (i & Ei & Hi). eauto. }
      destruct (W c Hc) as (i & Hi & Ei), (W c' Hc') as (i' & Hi' & Ei').
      destruct (Nat.eq_dec (length (i_items i)) (length (i_items first))) as [E1|E1].
      * exists i'. destruct Hi' as [<- | Hi']; [rewrite <- Ei, <- Ei' in L; congruence|]. split; [exact Hi'|]. rewrite <- Ei, <- Ei' in L. congruence.
      * exists i. destruct Hi as [<- | Hi]; [now elim E1|]. now split.
Qed.
Lemma filter_refused n cols filter : 0 <= n < 68719476731 -> cols <> [] -> Forall (column_ok n) cols -> filter_bad n filter -> prepare cols filter = Error.
Proof.
  intros HN NE HC HB. unfold prepare. destruct filter as [|a|]; cbn [filter_bad] in HB; [contradiction| |reflexivity].
  destruct (columns_read n cols PNone (conj HN (conj NE (conj HC Logic.I)))) as (infos & E & E1 & _ & F). rewrite E. cbn [AllModel.obind].
  destruct infos as [|first rest]; [destruct cols; [now elim NE|discriminate]|]. cbv zeta. inversion F as [|? ? (_ & _ & _ & HL) Fr]; subst. rewrite HL.
  destruct (forallb _ rest); [|reflexivity]. cbn [negb read_filter]. rewrite Z2Nat.id by lia.
  destruct (a_dtype a =? 0) eqn:E0, (a_len a =? n) eqn:El; try reflexivity. lia.
Qed.
Lemma prepare_refused crc crc_bytes ord d cols hint filter mode cutoffs : hint_ok hint = true -> prepare cols filter = Error ->
  MultiKeyGroupBy32 crc crc_bytes ord cols hint filter mode cutoffs = Error /\ MultiKeyGroupBy32Super crc_bytes cols hint filter mode = Error /\
  MultiKeyUnique32 crc_bytes cols hint filter = Error /\ MultiKeyHashCall crc_bytes d cols hint filter = Error.
Proof.
  intros H E. unfold MultiKeyGroupBy32, MultiKeyGroupBy32Super, MultiKeyUnique32, MultiKeyHashCall. rewrite H, E. cbn [negb AllModel.obind]. auto.
Qed.
Lemma cutoffs_refused n cols filter crc crc_bytes ord hint mode a : call_ok n cols filter -> 0 <= hint < 68719476731 ->
  (~ (a_dtype a = 7 \/ a_dtype a = 9) \/ (0 < a_len a /\ arg_ok (a_len a) a /\ gapless a /\ nth_error (arg_vals 0 a) (Z.to_nat (a_len a - 1)) <> Some n)) ->
  MultiKeyGroupBy32 crc crc_bytes ord cols hint filter mode (PArray a) = Error.
Proof.
  intros OK HH B. destruct (prepare_right n cols filter OK) as (core & EP & _). unfold MultiKeyGroupBy32. rewrite (hint_fine_ok hint HH), EP.
  cbn [negb AllModel.obind p_rows p_object p_core p_width p_filter]. rewrite (len_rows n cols filter OK). cbn [read_cutoffs]. destruct (int64_type (a_dtype a)) eqn:E; [|reflexivity].
  destruct B as [B | (HL & (_ & HS & HR) & HG & HX)]; [elim B; unfold int64_type in E; lia|]. pose proof (HR (a_len a - 1) ltac:(lia)) as Hl.
  assert (EQ : a_start a + (a_len a - 1) * a_step a = a_start a + a_len a - 1) by (destruct HG as [-> | G]; [lia|]; replace (a_len a) with 1 by lia; lia).
  unfold zrd. rewrite EQ in Hl. rewrite (proj2 (Z.leb_le 0 _)) by lia. destruct (nth_error (a_mem a) (Z.to_nat (a_start a + a_len a - 1))) as [x|] eqn:Ex; [|apply nth_error_None in Ex; lia].
  cbn [undef AllModel.obind]. destruct (x =? n) eqn:XN; [|reflexivity]. exfalso. apply HX. unfold arg_vals. rewrite nth_error_map, nth_error_seq. rewrite (proj2 (Nat.ltb_lt _ _)) by lia. cbn [option_map]. f_equal.
  rewrite Nat.add_0_l, Z2Nat.id, EQ by lia. rewrite (nth_error_nth _ _ 0 Ex). lia.
Qed.
