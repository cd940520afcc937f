(** Proofs about MultiKeyAlign32 and MultiKeyIsMember32 from their arguments to their results. *)
From Verif Require Import Base Mem MemLemmas Num AllModel EaModel EaSpec Ea2Proofs.
From Verif Require Import HashModel HashTable HashSpec HashProofs HashMember HashAlign.
From Verif Require Import MkModel MkSpec MkProofs Mk2Proofs Mk3Proofs RkModel RkSpec RkProofs AkModel AkSpec.
Local Open Scope Z_scope.
Notation flat := (map (@concat Z)).

Lemma both_done {X Y} (a : X) (b : Y) : both (Done a) (Done b) = Done (a, b).
Proof. reflexivity. Qed.
Lemma table_len n cols : length (table n cols) = Z.to_nat n.
Proof. unfold table. now rewrite map_length, seq_length. Qed.
Lemma rows_len n cols : 0 <= n -> Z.of_nat (length (flat (table n cols))) = n.
Proof. intros H. rewrite map_length, table_len. now apply Z2Nat.id. Qed.

(** Two rows with the same bytes are the same, whatever tables they are in. *)
Lemma across n1 n2 k1 k2 x y : tables_ok n1 n2 k1 k2 -> In x (table n1 (cols_of k1)) -> In y (table n2 (cols_of k2)) -> concat x = concat y -> x = y.
Proof.
  intros ((O1 & _) & (O2 & _) & E) Hx Hy. apply in_map_iff in Hx as (i & <- & Hi). apply in_map_iff in Hy as (j & <- & Hj). apply in_seq in Hi. apply in_seq in Hj.
  apply concat_inj. pose proof (row_sizes n1 _ i O1 (proj2 Hi)) as S1. pose proof (row_sizes n2 _ j O2 (proj2 Hj)) as S2. rewrite E, <- S2 in S1.
  clear -S1. revert S1. generalize (row_at (cols_of k2) j). induction (row_at (cols_of k1) i) as [|u l IH]; intros [|v m] S1; try discriminate; constructor.
  - injection S1 as S1 _. now apply Nat2Z.inj.
  - injection S1 as _ S1. now apply IH.
Qed.

Lemma elig_iff {K L V} (f : K -> L) (lt lt' : V -> V -> Prop) (valid valid' : V -> Prop) exact key1 key2 (val1 val2 : list V) forward i j :
  (forall x y, In x key1 -> In y key2 -> f x = f y -> x = y) -> (forall x y, lt x y <-> lt' x y) -> (forall x, valid x <-> valid' x) ->
  eligible lt valid exact (map f key1) (map f key2) val1 val2 forward i j <-> eligible lt' valid' exact key1 key2 val1 val2 forward i j.
Proof.
  intros HF HL HV.
  assert (C : forall v1 v2, (if forward then (if exact then ~ lt v2 v1 else lt v1 v2) else (if exact then ~ lt v1 v2 else lt v2 v1)) <->
    (if forward then (if exact then ~ lt' v2 v1 else lt' v1 v2) else (if exact then ~ lt' v1 v2 else lt' v2 v1))).
  { intros v1 v2. destruct forward, exact; rewrite ?HL; reflexivity. }
  split.
  - intros (k & v1 & v2 & E1 & E2 & E3 & E4 & V1 & V2 & O). rewrite nth_error_map in E1, E2. destruct (nth_error key1 i) as [x|] eqn:X; [|discriminate E1].
    destruct (nth_error key2 j) as [y|] eqn:Y; [|discriminate E2]. cbn in E1, E2. injection E1 as <-. injection E2 as E2. symmetry in E2.
    apply HF in E2; [|eapply nth_error_In; exact X|eapply nth_error_In; exact Y]. subst y. exists x, v1, v2. rewrite <- (HV v1), <- (HV v2), <- (C v1 v2). auto 8.
  - intros (k & v1 & v2 & E1 & E2 & E3 & E4 & V1 & V2 & O). exists (f k), v1, v2. rewrite !nth_error_map, E1, E2, (HV v1), (HV v2), (C v1 v2). cbn [option_map]. auto 8.
Qed.
Lemma asof_map {K L V} (f : K -> L) (lt lt' : V -> V -> Prop) (valid valid' : V -> Prop) exact key1 key2 (val1 val2 : list V) forward bad r :
  (forall x y, In x key1 -> In y key2 -> f x = f y -> x = y) -> (forall x y, lt x y <-> lt' x y) -> (forall x, valid x <-> valid' x) ->
  asof_spec lt valid exact (map f key1) (map f key2) val1 val2 forward bad r -> asof_spec lt' valid' exact key1 key2 val1 val2 forward bad r.
Proof.
  intros HF HL HV (LR & R). rewrite map_length in LR. split; [exact LR|]. intros i x E. pose proof (fun j => elig_iff f lt lt' valid valid' exact key1 key2 val1 val2 forward i j HF HL HV) as Q.
  destruct (R i x E) as [(j & EJ & -> & BJ)|(NO & ->)].
  - left. exists j. split; [now apply Q|]. split; [reflexivity|]. intros j' EJ'. apply BJ. now apply Q.
  - right. split; [|reflexivity]. intros j EJ. apply (NO j). now apply Q.
Qed.

Lemma member_map {K L} (f : K -> L) bad (b a : list K) r : (forall x y, In x a -> In y b -> f x = f y -> x = y) ->
  member_spec eq bad (map f b) (map f a) r -> member_spec eq bad b a r.
Proof.
  intros HF M. unfold member_spec in *. revert r M. induction a as [|x a IH]; intros r M; inversion M as [|? y ? r' R Rs]; subst; constructor.
  - destruct R as [(j & y0 & E & Q & F & ->)|(N & ->)].
    + rewrite nth_error_map in E. destruct (nth_error b j) as [z|] eqn:Z; [|discriminate E]. cbn in E. injection E as <-. left. exists j, z. split; [exact Z|]. split.
      { apply HF; [now left|eapply nth_error_In; exact Z|exact Q]. }
      split; [|reflexivity]. intros j' y' Lj Ej ->. apply (F j' (f y') Lj); [now rewrite nth_error_map, Ej|reflexivity].
    + right. split; [|reflexivity]. intros z Hz ->. apply (N (f z)); [now apply in_map|reflexivity].
  - apply IH; [|exact Rs]. intros u v Hu. apply HF. now right.
Qed.

Lemma align_rows crc_bytes V (lt eq : V -> V -> bool) valid forward exact bad d n1 n2 k1 k2 (val1 val2 : list V) (lt' valid' : _) :
  tables_ok n1 n2 k1 k2 -> time_order lt eq valid -> length val1 = Z.to_nat n1 -> length val2 = Z.to_nat n2 ->
  (forall x y, lt x y = true <-> lt' x y) -> (forall x, valid x = true <-> valid' x) -> time_sorted lt' valid' val1 -> time_sorted lt' valid' val2 ->
  exists r, MultiKeyAlign bytes_eqb (row_hash crc_bytes) lt eq valid forward exact bad d (flat (table n1 (cols_of k1))) (flat (table n2 (cols_of k2))) val1 val2 = Ret r /\
    asof_spec lt' valid' exact (table n1 (cols_of k1)) (table n2 (cols_of k2)) val1 val2 forward bad r.
Proof.
  intros T TO L1 L2 HL HV S1 S2. assert (N2 : 0 <= n2 < 68719476731) by (destruct T as (_ & ((N2 & _) & _) & _); exact N2).
  assert (SS : forall val, time_sorted lt' valid' val -> time_sorted (fun x y => lt x y = true) (fun x => valid x = true) val).
  { intros val S i j x y Lij Ei Ej Vx Vy C. apply (S i j x y Lij Ei Ej); [now apply HV|now apply HV|now apply HL]. }
  assert (W : okt False (asof_spec (fun x y => lt x y = true) (fun x => valid x = true) exact (flat (table n1 (cols_of k1))) (flat (table n2 (cols_of k2))) val1 val2 forward bad)
    (MultiKeyAlign bytes_eqb (row_hash crc_bytes) lt eq valid forward exact bad d (flat (table n1 (cols_of k1))) (flat (table n2 (cols_of k2))) val1 val2)).
  { apply align_ok; [exact bytes_eqb_eq|exact TO|intros size x; apply mask_range|now rewrite map_length, table_len|now rewrite map_length, table_len|rewrite rows_len; lia|now apply SS|now apply SS]. }
  destruct (okt_ret _ _ _ W ltac:(auto)) as (r & E & R). exists r. split; [exact E|]. revert R. apply asof_map; [|exact HL|exact HV].
  intros x y Hx Hy. now apply (across n1 n2 k1 k2).
Qed.

Lemma widths n1 n2 k1 k2 : tables_ok n1 n2 k1 k2 -> total_size (cols_of k1) = total_size (cols_of k2).
Proof. intros (_ & _ & E). unfold total_size. now rewrite E. Qed.
Definition result_type (n1 n2 : Z) : Z := if (2000000000 <? n1) || (2000000000 <? n2) then 7 else 5.
Lemma result_type_right n1 n2 : align_type n1 n2 (result_type n1 n2) (bad_index (result_type n1 n2)).
Proof.
  unfold result_type. destruct (Z.ltb_spec 2000000000 n1) as [A|A]; cbn [orb]; [apply align_64; now left|].
  destruct (Z.ltb_spec 2000000000 n2) as [B|B]; [apply align_64; now right|]. now apply align_32.
Qed.
Lemma member_type_right n1 n2 : found_type n1 n2 (member_type n1 n2) (bad_index (member_type n1 n2)).
Proof.
  unfold member_type. assert (E : (if n1 <? n2 then n2 else n1) = Z.max n1 n2) by (destruct (Z.ltb_spec n1 n2); lia). rewrite E.
  destruct (Z.ltb_spec (Z.max n1 n2) 100) as [A|A]; [apply found_8; lia|]. destruct (Z.ltb_spec (Z.max n1 n2) 30000) as [B|B]; [apply found_16; lia|].
  destruct (Z.ltb_spec (Z.max n1 n2) 2000000000) as [C|C]; [apply found_32; lia|now apply found_64].
Qed.

Section Calls.
  Context (crc_bytes : list Z -> Z) (d : Z).
  Notation Call := (MultiKeyAlign32Call crc_bytes d).

  Lemma call_steps n1 n2 k1 k2 v1 v2 forward exact : keys_ok n1 k1 -> keys_ok n2 k2 ->
    Call k1 k2 v1 v2 forward exact =
    match v1, v2 with
    | TOther, _ | _, TOther => Error
    | _, _ =>
        if negb (total_size (cols_of k1) =? total_size (cols_of k2)) then Error
        else if negb (types_agree v1 v2) then Error
        else if negb (array_length v1 =? n1) then Error
        else if negb (array_length v2 =? n2) then Error
        else AllModel.obind (align crc_bytes d forward exact (bad_index (result_type n1 n2)) (flat (table n1 (cols_of k1))) (flat (table n2 (cols_of k2))) v1 v2)
               (fun r => Done (Some (result_type n1 n2, r)))
    end.
  Proof.
    intros K1 K2. destruct (keys_prepared _ _ K1) as (c1 & E1). destruct (keys_prepared _ _ K2) as (c2 & E2).
    assert (N1 : 0 <= n1) by (destruct K1 as (((N & _) & _) & _); exact N). assert (N2 : 0 <= n2) by (destruct K2 as (((N & _) & _) & _); exact N).
    unfold MultiKeyAlign32Call. rewrite E1, E2, both_done. cbn [AllModel.obind fst snd p_width p_rows p_object negb]. rewrite !rows_len by assumption.
    destruct v1, v2; reflexivity.
  Qed.
  Lemma int_call n1 n2 k1 k2 size a1 a2 none forward exact : tables_ok n1 n2 k1 k2 -> int_time (a_dtype a1) none -> int_time (a_dtype a2) none ->
    ints_ok n1 none a1 -> ints_ok n2 none a2 ->
    exists r dtype bad, Call k1 k2 (TInt size a1) (TInt size a2) forward exact = Done (Some (dtype, r)) /\ align_type n1 n2 dtype bad /\
      asof_spec Z.lt (fun x => x <> none) exact (table n1 (cols_of k1)) (table n2 (cols_of k2)) (arg_vals 0 a1) (arg_vals 0 a2) forward bad r.
  Proof.
    intros T I1 I2 (A1 & G1 & S1) (A2 & G2 & S2). pose proof T as (K1 & K2 & _). rewrite (call_steps n1 n2) by assumption. rewrite (widths _ _ _ _ T), Z.eqb_refl. cbn [negb].
    assert (TA : types_agree (TInt size a1) (TInt size a2) = true).
    { unfold types_agree, object_type, item_size. rewrite Z.eqb_refl. inversion I1; inversion I2; subst none; try discriminate; reflexivity. }
    assert (OT : int_invalid (object_type (TInt size a1)) = Some none) by (unfold object_type; inversion I1; reflexivity).
    rewrite TA. cbn [negb array_length]. rewrite (proj1 A1), (proj1 A2), !Z.eqb_refl. cbn [negb].
    assert (N1 : 0 <= n1) by (destruct K1 as (((N & _) & _) & _); exact N). assert (N2 : 0 <= n2) by (destruct K2 as (((N & _) & _) & _); exact N).
    unfold align. rewrite OT, (read_arg_right 0 n1 a1 N1 A1 G1), (read_arg_right 0 n2 a2 N2 A2 G2). cbn [undef AllModel.obind].
    destruct (align_rows crc_bytes Z Z.ltb Z.eqb (fun x => negb (x =? none)) forward exact (bad_index (result_type n1 n2)) d n1 n2 k1 k2 (arg_vals 0 a1) (arg_vals 0 a2) Z.lt (fun x => x <> none))
      as (r & E & R); [exact T|apply HashAlign.int_time|now apply arg_vals_length|now apply arg_vals_length|apply Z.ltb_lt| |exact S1|exact S2|].
    { intros x. rewrite Bool.negb_true_iff. apply Z.eqb_neq. }
    rewrite E. cbn [AllModel.obind]. exists r, (result_type n1 n2), (bad_index (result_type n1 n2)). split; [reflexivity|]. split; [apply result_type_right|exact R].
  Qed.
  Lemma float_call n1 n2 k1 k2 s1 s2 a1 a2 forward exact : tables_ok n1 n2 k1 k2 -> a_dtype a1 = 11 \/ a_dtype a1 = 12 -> a_dtype a2 = a_dtype a1 ->
    floats_ok n1 a1 -> floats_ok n2 a2 ->
    exists r dtype bad, Call k1 k2 (TFloat s1 a1) (TFloat s2 a2) forward exact = Done (Some (dtype, r)) /\ align_type n1 n2 dtype bad /\
      asof_spec (fun x y => flt x y = true) (fun x => is_nan x = false) exact (table n1 (cols_of k1)) (table n2 (cols_of k2)) (arg_vals NaN a1) (arg_vals NaN a2) forward bad r.
  Proof.
    intros T I1 I2 (A1 & G1 & S1) (A2 & G2 & S2). pose proof T as (K1 & K2 & _). rewrite (call_steps n1 n2) by assumption. rewrite (widths _ _ _ _ T), Z.eqb_refl. cbn [negb].
    assert (TA : types_agree (TFloat s1 a1) (TFloat s2 a2) = true).
    { unfold types_agree, object_type. rewrite I2. destruct I1 as [-> | ->]; reflexivity. }
    assert (OT : (object_type (TFloat s1 a1) =? 11) || (object_type (TFloat s1 a1) =? 12) = true) by (unfold object_type; destruct I1 as [-> | ->]; reflexivity).
    rewrite TA. cbn [negb array_length]. rewrite (proj1 A1), (proj1 A2), !Z.eqb_refl. cbn [negb].
    assert (N1 : 0 <= n1) by (destruct K1 as (((N & _) & _) & _); exact N). assert (N2 : 0 <= n2) by (destruct K2 as (((N & _) & _) & _); exact N).
    unfold align. rewrite OT, (read_arg_right NaN n1 a1 N1 A1 G1), (read_arg_right NaN n2 a2 N2 A2 G2). cbn [undef AllModel.obind].
    destruct (align_rows crc_bytes fl flt feq (fun x => negb (is_nan x)) forward exact (bad_index (result_type n1 n2)) d n1 n2 k1 k2 (arg_vals NaN a1) (arg_vals NaN a2)
      (fun x y => flt x y = true) (fun x => is_nan x = false))
      as (r & E & R); [exact T|apply fl_time|now apply arg_vals_length|now apply arg_vals_length|reflexivity| |exact S1|exact S2|].
    { intros x. apply Bool.negb_true_iff. }
    rewrite E. cbn [AllModel.obind]. exists r, (result_type n1 n2), (bad_index (result_type n1 n2)). split; [reflexivity|]. split; [apply result_type_right|exact R].
  Qed.

  Lemma keys_refused k : keys_bad k -> prepare_keys k = Error.
  Proof. intros B. destruct k as [cols|cols]; [now apply tuple_refused|now apply list_refused]. Qed.
  Lemma both_refused k1 k2 : keys_fit k1 \/ keys_bad k1 -> keys_fit k2 \/ keys_bad k2 -> keys_bad k1 \/ keys_bad k2 -> both (prepare_keys k1) (prepare_keys k2) = Error.
  Proof.
    assert (F : forall k, keys_fit k -> exists p, prepare_keys k = Done p) by (intros k (n & K); destruct (keys_prepared _ _ K) as (c & ->); eauto).
    intros [A|A] [B|B] C.
    - destruct C as [C|C]; [rewrite (keys_refused _ C); destruct (F _ B) as (p & ->)|rewrite (keys_refused _ C); destruct (F _ A) as (p & ->)]; reflexivity.
    - rewrite (keys_refused _ B). destruct (F _ A) as (p & ->). reflexivity.
    - rewrite (keys_refused _ A). destruct (F _ B) as (p & ->). reflexivity.
    - rewrite (keys_refused _ A), (keys_refused _ B). reflexivity.
  Qed.
  Lemma align_refused k1 k2 v1 v2 forward exact : keys_fit k1 \/ keys_bad k1 -> keys_fit k2 \/ keys_bad k2 -> keys_bad k1 \/ keys_bad k2 -> Call k1 k2 v1 v2 forward exact = Error.
  Proof. intros A B C. unfold MultiKeyAlign32Call. rewrite (both_refused _ _ A B C). destruct v1, v2; reflexivity. Qed.
  Lemma times_refused n1 n2 k1 k2 v1 v2 forward exact : keys_ok n1 k1 -> keys_ok n2 k2 -> times_bad n1 n2 v1 v2 \/ total_size (cols_of k1) <> total_size (cols_of k2) ->
    Call k1 k2 v1 v2 forward exact = Error.
  Proof.
    intros K1 K2 B. rewrite (call_steps n1 n2) by assumption. destruct (Z.eqb_spec (total_size (cols_of k1)) (total_size (cols_of k2))) as [E|E]; [|destruct v1, v2; reflexivity].
    destruct B as [B|]; [|contradiction]. cbn [negb]. destruct (types_agree v1 v2) eqn:TA; [|destruct v1, v2; reflexivity].
    destruct (Z.eqb_spec (array_length v1) n1) as [L1|L1]; [|destruct v1, v2; reflexivity]. destruct (Z.eqb_spec (array_length v2) n2) as [L2|L2]; [|destruct v1, v2; reflexivity]. cbn [negb].
    unfold types_agree in TA. apply andb_prop in TA as (TA1 & TA2). apply Z.leb_le in TA1.
    assert (O1 : object_type v1 = dtype_of v1).
    { revert TA1. unfold object_type. fold (dtype_of v1). destruct (known_type _); [reflexivity|intros C; exfalso; apply C; reflexivity]. }
    assert (O2 : object_type v2 = dtype_of v2 \/ (object_type v2 = -1 /\ ~ 0 <= dtype_of v2 <= 20)).
    { unfold object_type. fold (dtype_of v2). unfold known_type. destruct (Z.leb_spec 0 (dtype_of v2)) as [P|P], (Z.leb_spec (dtype_of v2) 20) as [Q|Q]; cbn [andb]; auto; right; split; auto; lia. }
    assert (AG : dtype_of v1 = dtype_of v2 \/ (dtype_of v1 <= 10 /\ item_size v1 = item_size v2 /\ Z.odd (dtype_of v1) = Z.odd (object_type v2))).
    { apply orb_prop in TA2 as [Q|Q].
      - apply Z.eqb_eq in Q. left. destruct O2 as [O2|(O2 & _)]; rewrite O1, O2 in Q; [exact Q|]. exfalso. rewrite O1, Q in TA1. apply TA1. reflexivity.
      - apply andb_prop in Q as (Q & S). apply andb_prop in Q as (Q & P). apply andb_prop in Q as (Q & _). right. apply Z.leb_le in Q. apply Z.eqb_eq in S. apply Bool.eqb_prop in P.
        rewrite O1 in *. auto. }
    destruct B as [B|B|B|B|B|B|B|B].
    - now rewrite B.
    - rewrite B. destruct v1; reflexivity.
    - assert (I : int_invalid (object_type v1) = None /\ (object_type v1 =? 11) || (object_type v1 =? 12) = false).
      { rewrite O1. assert (M : forall x, x < 5 \/ 12 < x -> int_invalid x = None /\ (x =? 11) || (x =? 12) = false); [|apply M; lia]. intros x Hx. split.
        - destruct x as [|p|p]; try reflexivity. repeat (destruct p as [p|p|]; try reflexivity; try (exfalso; lia)).
        - rewrite (proj2 (Z.eqb_neq x 11)), (proj2 (Z.eqb_neq x 12)) by lia. reflexivity. }
      unfold align. destruct v1, v2; try reflexivity; [now rewrite (proj1 I)|now rewrite (proj2 I)].
    - exfalso. destruct B as (B & C). destruct AG as [AG|(AG & _)]; [congruence|lia].
    - exfalso. destruct B as (B & C). destruct AG as [AG|(_ & AG & _)]; contradiction.
    - exfalso. destruct B as (B & C). destruct O2 as [O2|(_ & O2)]; [|contradiction]. rewrite O2 in AG. destruct AG as [AG|(_ & _ & AG)]; congruence.
    - exfalso. apply B. rewrite <- L1. destruct v1; reflexivity.
    - exfalso. apply B. rewrite <- L2. destruct v2; reflexivity.
  Qed.

  Context (ord : sched) (threaded : bool) (FAIR : fair ord).
  Notation Member := (MultiKeyIsMember32Call crc_bytes ord threaded).
  Lemma member_call n1 n2 k1 k2 hint : tables_ok n1 n2 k1 k2 -> 0 < n1 -> 0 < n2 ->
    hint_fine (match hint with Some h => h | None => 0 end) (table n2 (cols_of k2)) ->
    exists r dtype bad, Member k1 k2 hint = Done (Some (map fst r, dtype, map snd r)) /\ found_type n1 n2 dtype bad /\
      member_spec eq bad (table n2 (cols_of k2)) (table n1 (cols_of k1)) r.
  Proof.
    intros T P1 P2 HF. pose proof T as (K1 & K2 & _). destruct (keys_prepared _ _ K1) as (c1 & E1). destruct (keys_prepared _ _ K2) as (c2 & E2).
    unfold MultiKeyIsMember32Call. set (h := match hint with Some h => h | None => 0 end) in *. pose proof (hint_fine_range n2 _ _ HF) as HR.
    rewrite (hint_fine_ok _ HR). cbn [negb]. rewrite E1, E2, both_done. cbn [AllModel.obind p_width p_rows]. rewrite !rows_len by lia.
    rewrite (proj2 (Z.eqb_neq n1 0)), (proj2 (Z.eqb_neq n2 0)) by lia. cbn [orb]. rewrite (widths _ _ _ _ T), Z.eqb_refl. cbn [negb].
    assert (EN : entries h n2 < 68719476731). { unfold entries. destruct (h =? 0); [|lia]. destruct K2 as (((N & N') & _) & _). exact N'. }
    pose proof (MultiKeyIsMember_ok crc_bytes ord threaded h (bad_index (member_type n1 n2)) (flat (table n1 (cols_of k1))) (flat (table n2 (cols_of k2))) FAIR) as Q.
    rewrite rows_len in Q by lia. specialize (Q EN). apply okt_ret in Q as (r & E & R).
    2:{ intros C. apply C. apply fewer_map. now apply (hint_room n2 (cols_of k2) PNone (proj1 K2)). }
    rewrite E. exists r, (member_type n1 n2), (bad_index (member_type n1 n2)). split; [reflexivity|]. split; [apply member_type_right|].
    apply (member_map (@concat Z)); [|exact R]. intros x y Hx Hy. now apply (across n1 n2 k1 k2).
  Qed.
  Lemma member_refused k1 k2 hint : 0 <= (match hint with Some h => h | None => 0 end) < 2 ^ 63 -> keys_fit k1 \/ keys_bad k1 -> keys_fit k2 \/ keys_bad k2 -> keys_bad k1 \/ keys_bad k2 ->
    Member k1 k2 hint = Error.
  Proof.
    intros HR A B C. unfold MultiKeyIsMember32Call, hint_ok. rewrite (proj2 (Z.leb_le _ _)), (proj2 (Z.ltb_lt _ _)) by apply HR. cbn [andb negb]. now rewrite (both_refused _ _ A B C).
  Qed.
  Lemma member_unlike n1 n2 k1 k2 hint : 0 <= (match hint with Some h => h | None => 0 end) < 2 ^ 63 -> keys_ok n1 k1 -> keys_ok n2 k2 ->
    n1 = 0 \/ n2 = 0 \/ total_size (cols_of k1) <> total_size (cols_of k2) -> Member k1 k2 hint = Error.
  Proof.
    intros HR K1 K2 C. destruct (keys_prepared _ _ K1) as (c1 & E1). destruct (keys_prepared _ _ K2) as (c2 & E2).
    assert (N1 : 0 <= n1) by (destruct K1 as (((N & _) & _) & _); exact N). assert (N2 : 0 <= n2) by (destruct K2 as (((N & _) & _) & _); exact N).
    unfold MultiKeyIsMember32Call, hint_ok. rewrite (proj2 (Z.leb_le _ _)), (proj2 (Z.ltb_lt _ _)) by apply HR. cbn [andb negb]. rewrite E1, E2, both_done. cbn [AllModel.obind p_width p_rows].
    rewrite !rows_len by assumption. destruct (Z.eqb_spec n1 0); [reflexivity|]. destruct (Z.eqb_spec n2 0); [reflexivity|]. cbn [orb].
    destruct (Z.eqb_spec (total_size (cols_of k1)) (total_size (cols_of k2))); [|reflexivity]. destruct C as [C|[C|C]]; contradiction.
  Qed.
End Calls.
