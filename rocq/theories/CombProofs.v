(** Proofs about filters and group numbers. *)
From Verif Require Import Base Mem MemLemmas Par CombModel CombSpec HashModel HashSpec HashGroup.
Local Open Scope Z_scope.

(** ** CombineFilter *)
Lemma CombineFilter_ok ord thr w index filter : fair ord -> 0 < w -> has_width w index -> (forall b, In b filter -> b = 0 \/ b = 1) -> length index = length filter ->
  CombineFilter ord thr w index filter = Some (map (fun p : Z * Z => if snd p =? 0 then 0 else fst p) (combine index filter)).
Proof.
  intros Ho Hw W B L. unfold CombineFilter. rewrite L, Nat.eqb_refl.
  rewrite (par_map_some ord thr CHUNK _ _ (fun i => if nth i filter 0 =? 0 then 0 else nth i index 0)).
  - f_equal. apply list_ext. intros i. rewrite !nth_error_map, nth_error_seq. destruct (Nat.ltb_spec i (length filter)).
    + rewrite (nth_error_nth' (combine index filter) (0, 0)) by (rewrite combine_length; lia). rewrite combine_nth by auto. reflexivity.
    + rewrite (proj2 (nth_error_None _ _)); auto. rewrite combine_length. lia.
  - auto.
  - unfold CHUNK. lia.
  - intros i Hi. rewrite (nth_error_nth' index 0) by lia. rewrite (nth_error_nth' filter 0) by lia.
    assert (I1 : In (nth i index 0) index) by (apply nth_In; lia). assert (I2 : In (nth i filter 0) filter) by (apply nth_In; lia).
    apply W in I1. apply B in I2 as [-> | ->]; f_equal.
    + rewrite Z.mul_0_r. change (if 0 =? 0 then 0 else nth i index 0) with 0. apply wrap_id; auto. assert (0 < 2 ^ (w - 1)) by (apply Z.pow_pos_nonneg; lia). lia.
    + rewrite Z.mul_1_r. simpl. now apply wrap_id.
Qed.

(** ** CombineAccum2Filter *)
Lemma wrap_out hashSize b : 0 <= hashSize < 2 ^ 63 -> 0 <= b < hashSize -> wrap (out_width hashSize) b = b /\ wrap (out_width hashSize) hashSize = hashSize.
Proof.
  intros H B. unfold out_width.
  destruct (Z.ltb_spec hashSize 120); [|destruct (Z.ltb_spec hashSize 32000); [|destruct (Z.ltb_spec hashSize 2000000000)]]; split; apply wrap_id; try lia;
    change (2 ^ (8 - 1)) with 128 || change (2 ^ (16 - 1)) with 32768 || change (2 ^ (32 - 1)) with 2147483648 || change (2 ^ (64 - 1)) with (2 ^ 63); lia.
Qed.
Lemma pair_range m1 m2 x1 x2 : 0 <= x1 < m1 -> 0 <= x2 < m2 -> 0 <= x2 * m1 + x1 < m1 * m2.
Proof. nia. Qed.
Lemma in_int64_ok x : 0 <= x < 2 ^ 63 -> in_int64 x = true.
Proof. intros H. unfold in_int64. destruct (Z.leb_spec (- 2 ^ 63) x), (Z.ltb_spec x (2 ^ 63)); lia || reflexivity. Qed.
Lemma accum2_row_ok m1 m2 x1 x2 f : 0 <= x1 < m1 -> 0 <= x2 < m2 -> m1 * m2 < 2 ^ 63 ->
  accum2_row m1 (m1 * m2) x1 x2 f = Some (match f with Some false => 0 | _ => x2 * m1 + x1 end).
Proof.
  intros H1 H2 H. pose proof (pair_range _ _ _ _ H1 H2) as R. unfold accum2_row. rewrite (in_int64_ok (x2 * m1)), (in_int64_ok (x2 * m1 + x1)) by nia. cbn [andb].
  destruct (wrap_out (m1 * m2) (x2 * m1 + x1)) as [-> ->]; [lia|lia|]. destruct f as [[]|]; auto.
  destruct (Z.leb_spec 0 (x2 * m1 + x1)), (Z.ltb_spec (x2 * m1 + x1) (m1 * m2)); try lia. reflexivity.
Qed.
Lemma Accum2_ok ord thr in1 in2 max1 max2 filter : fair ord -> length in2 = length in1 -> (forall f, filter = Some f -> length f = length in1) ->
  (forall x, In x in1 -> 0 <= x <= max1) -> (forall x, In x in2 -> 0 <= x <= max2) -> -1 <= max1 -> -1 <= max2 -> max1 + 1 < 2 ^ 63 -> max2 + 1 < 2 ^ 63 -> (max1 + 1) * (max2 + 1) < 2 ^ 63 ->
  CombineAccum2Filter ord thr in1 in2 max1 max2 filter =
    Ok (map (fun i => if pass_at filter i then nth i in2 0 * (max1 + 1) + nth i in1 0 else 0) (seq 0 (length in1))).
Proof.
  intros Ho L LF H1 H2 M1 M2 B1 B2 B. unfold CombineAccum2Filter. rewrite !in_int64_ok by nia. cbn [andb negb].
  rewrite L, Nat.eqb_refl. cbn [negb].
  replace (match filter with Some f => negb (length in1 =? length f)%nat | None => false end) with false.
  2:{ destruct filter as [f|]; auto. rewrite (LF f eq_refl), Nat.eqb_refl. reflexivity. }
  destruct (Z.ltb_spec ((max1 + 1) * (max2 + 1)) 0); [nia|].
  rewrite (par_map_some ord thr CHUNK _ _ (fun i => if pass_at filter i then nth i in2 0 * (max1 + 1) + nth i in1 0 else 0)); auto.
  - unfold CHUNK; lia.
  - intros i Hi. rewrite (nth_error_nth' in1 0), (nth_error_nth' in2 0) by lia.
    assert (I1 : In (nth i in1 0) in1) by (apply nth_In; lia). assert (I2 : In (nth i in2 0) in2) by (apply nth_In; lia).
    apply H1 in I1. apply H2 in I2. destruct filter as [f|]; simpl pass_at.
    + rewrite (nth_error_nth' f false) by (rewrite (LF f eq_refl); lia). rewrite accum2_row_ok by lia. destruct (nth i f false); auto.
    + rewrite accum2_row_ok by lia. reflexivity.
Qed.
Lemma pair_inj m1 x1 x2 y1 y2 : 0 <= x1 < m1 -> 0 <= y1 < m1 -> (x2 * m1 + x1 = y2 * m1 + y1 <-> x1 = y1 /\ x2 = y2).
Proof. intros Hx Hy. split; [|intros [-> ->]; auto]. intros E. assert (x2 = y2) by nia. subst. split; auto. lia. Qed.

(** ** CombineAccum1Filter *)
Definition krow (H : Z) (p : Z * bool) : Z * bool := (fst p, snd p && (0 <? fst p) && (fst p <? H)).

Lemma grouped_count rows idx first M : grouped rows idx first -> (forall i k, kept rows i k -> 1 <= k <= M) -> Z.of_nat (length first) <= Z.max 0 M.
Proof.
  intros G HM. set (key := fun r : Z => match nth_error rows (Z.to_nat r) with Some (k, _) => k | None => 0 end).
  assert (K : forall g r, nth_error first g = Some r -> exists i, r = Z.of_nat i /\ first_row rows i (key r)).
  { intros g r E. destruct (gr_first _ _ _ G g r E) as (i & k & -> & F & _). exists i. split; auto. unfold key. rewrite Nat2Z.id. destruct F as [F F2]. unfold kept in F. rewrite F. split; auto. }
  assert (ND : NoDup (map key first)).
  { apply NoDup_nth_error. intros a b La E. rewrite map_length in La. rewrite !nth_error_map in E. destruct (nth_error_lt first a La) as (ra & Ea). rewrite Ea in E.
    destruct (nth_error first b) as [rb|] eqn:Eb; [|discriminate]. simpl in E. injection E as E.
    destruct (K a ra Ea) as (i & -> & Fi), (K b rb Eb) as (j & -> & Fj). rewrite E in Fi. pose proof (first_row_unique _ _ _ _ Fi Fj). subst j.
    destruct (Nat.lt_trichotomy a b) as [X|[X|X]]; auto; exfalso; [specialize (gr_order _ _ _ G a b _ _ X Ea Eb)|specialize (gr_order _ _ _ G b a _ _ X Eb Ea)]; lia. }
  assert (IN : incl (map key first) (map Z.of_nat (seq 1 (Z.to_nat M)))).
  { intros k Hk. apply in_map_iff in Hk as (r & <- & Hr). apply In_nth_error in Hr as (g & Eg). destruct (K g r Eg) as (i & -> & Fi).
    destruct Fi as [Fi _]. apply HM in Fi. apply in_map_iff. exists (Z.to_nat (key (Z.of_nat i))). split; [lia|]. apply in_seq. lia. }
  pose proof (NoDup_incl_length ND IN) as LL. rewrite !map_length, seq_length in LL. lia.
Qed.

Record cinv (H : Z) (n : nat) (done : list (Z * bool)) (s : comb) (fl : list Z) : Prop := {
  ci_grouped : grouped (map (krow H) done) (c_out s) fl;
  ci_unique : c_unique s = Z.of_nat (length fl);
  ci_first : firstn (length fl) (c_first s) = fl;
  ci_flen : length (c_first s) = n;
  ci_le : (length fl <= length done)%nat;
  ci_hlen : Z.of_nat (length (c_hash s)) = H;
  ci_hash : forall x, 0 < x < H -> exists h, zrd (c_hash s) x = Some h /\
    ((h = 0 /\ forall j, ~ kept (map (krow H) done) j x) \/ (exists g r, h = Z.of_nat g + 1 /\ nth_error fl g = Some (Z.of_nat r) /\ first_row (map (krow H) done) r x))
}.
Lemma kept_snoc {K} (rows : list (K * bool)) p j k : kept (rows ++ [p]) j k <-> kept rows j k \/ (j = length rows /\ p = (k, true)).
Proof.
  unfold kept. split.
  - intros E. apply nth_app_inv in E as [E|[-> E]]; auto.
  - intros [E|[-> ->]]; [now apply nth_app_old|now apply nth_app_new].
Qed.
Lemma first_row_snoc {K} (rows : list (K * bool)) p r k : first_row rows r k -> first_row (rows ++ [p]) r k.
Proof.
  intros [A B]. split; [apply kept_snoc; auto|]. intros j Hj C. apply kept_snoc in C as [C|[-> _]]; [now apply (B j)|].
  unfold kept in A. apply nth_error_Some_lt in A. lia.
Qed.

Lemma comb_row_ok w H n done s fl x p : 0 < w -> H <= 2 ^ 31 -> - 2 ^ (w - 1) <= x < 2 ^ (w - 1) -> (forall y q, In (y, q) done -> y < 2 ^ (w - 1)) -> (length done < n)%nat -> Z.of_nat n <= 2 ^ 31 ->
  cinv H n done s fl -> exists s' fl', comb_row w H (Z.of_nat (length done)) x p s = Some s' /\ cinv H n (done ++ [(x, p)]) s' fl'.
Proof.
  intros Hw HH Hx HD Hn HN [G U F FL LE HL HA]. unfold comb_row.
  assert (OL : length (c_out s) = length done) by (rewrite (gr_length _ _ _ G), map_length; auto).
  destruct (p && (0 <? x) && (x <? H)) eqn:P.
  - assert (XR : 0 < x < H). { apply andb_true_iff in P as [P P2]. apply andb_true_iff in P as [_ P1]. apply Z.ltb_lt in P1, P2. lia. }
    destruct (HA x XR) as (h & E & D). rewrite E.
    assert (KR : krow H (x, p) = (x, true)) by (unfold krow; simpl; now rewrite P).
    assert (BND : forall rows idx first, grouped rows idx first -> (forall i k, kept rows i k -> exists q, In (k, q) (done ++ [(x, p)]) /\ 0 < k) -> Z.of_nat (length first) < 2 ^ (w - 1)).
    { intros rows idx first G' Hk. assert (Z.of_nat (length first) <= Z.max 0 (2 ^ (w - 1) - 1)); [|lia].
      eapply grouped_count; eauto. intros i k Hik. destruct (Hk i k Hik) as (q & I & K0). apply in_app_iff in I as [I|[[= <- <-]|[]]]; [apply HD in I|]; lia. }
    assert (KD : forall i k, kept (map (krow H) done) i k -> exists q, In (k, q) done /\ 0 < k).
    { intros i k Hik. unfold kept in Hik. rewrite nth_error_map in Hik. destruct (nth_error done i) as [[y q]|] eqn:Ed; [|discriminate]. simpl in Hik. unfold krow in Hik. simpl in Hik. injection Hik as -> HK.
      exists q. split; [eapply nth_error_In; eauto|]. apply andb_true_iff in HK as [HK _]. apply andb_true_iff in HK as [_ HK]. now apply Z.ltb_lt in HK. }
    destruct D as [(-> & NK)|(g & r & -> & Eg & Fr)].
    + simpl. rewrite U.
      rewrite zwr_some by lia. rewrite zwr_some by lia. rewrite !Nat2Z.id.
      assert (G' : grouped (map (krow H) done ++ [(x, true)]) (c_out s ++ [Z.of_nat (length fl) + 1]) (fl ++ [Z.of_nat (length (c_out s))])) by now apply grouped_new.
      assert (W1 : wrap w (Z.of_nat (length fl) + 1) = Z.of_nat (length fl) + 1).
      { apply wrap_id; auto. assert (Z.of_nat (length (fl ++ [Z.of_nat (length (c_out s))])) < 2 ^ (w - 1)).
        - eapply BND; eauto. intros i k Hik. apply kept_snoc in Hik as [Hik|[-> [= <-]]].
          + destruct (KD i k Hik) as (q & I & K0). exists q. split; auto. apply in_or_app. now left.
          + exists p. split; [apply in_or_app; right; now left|lia].
        - rewrite app_length in H0. simpl in H0. lia. }
      assert (W2 : wrap 32 (Z.of_nat (length done)) = Z.of_nat (length done)) by (apply wrap_id; change (2 ^ (32 - 1)) with (2 ^ 31); lia).
      rewrite W1, W2. eexists _, (fl ++ [Z.of_nat (length done)]). split; [reflexivity|]. rewrite OL in G'. split; cbn [c_out c_unique c_first c_hash].
      * rewrite map_app. cbn [map]. rewrite KR. exact G'.
      * rewrite app_length. simpl. lia.
      * rewrite app_length. simpl length. rewrite Nat.add_1_r.
        assert (LF : (length fl < length (c_first s))%nat) by lia.
        rewrite (firstn_S_snoc _ _ (Z.of_nat (length done))) by now apply nth_error_upd_eq. f_equal.
        rewrite <- F at 3. apply list_ext. intros i. rewrite !nth_error_firstn. destruct (Nat.ltb_spec i (length fl)); auto. apply nth_error_upd_neq. lia.
      * now rewrite length_upd.
      * rewrite !app_length. simpl. lia.
      * now rewrite length_upd.
      * intros y Hy. rewrite map_app. cbn [map]. rewrite KR. destruct (Z.eq_dec y x) as [->|N].
        -- exists (Z.of_nat (length fl) + 1). split; [rewrite zrd_some, nth_error_upd_eq by lia; auto|]. right. exists (length fl), (length done). split; auto.
           split; [now apply nth_app_new|]. split; [apply kept_snoc; right; rewrite map_length; auto|]. intros j Hj C. apply kept_snoc in C as [C|[-> _]]; [now apply (NK j)|rewrite map_length in Hj; lia].
        -- destruct (HA y Hy) as (h & Eh & D). exists h. split; [rewrite zrd_some, nth_error_upd_neq, <- zrd_some by lia; auto|].
           destruct D as [(-> & NK')|(g & r & -> & Eg & Fr)]; [left|right].
           ++ split; auto. intros j C. apply kept_snoc in C as [C|[_ [= C]]]; [now apply (NK' j)|congruence].
           ++ exists g, r. split; auto. split; [now apply nth_app_old|now apply first_row_snoc].
    + destruct (Z.eqb_spec (Z.of_nat g + 1) 0); [lia|].
      assert (W1 : wrap w (Z.of_nat g + 1) = Z.of_nat g + 1).
      { apply wrap_id; auto. apply nth_error_Some_lt in Eg. assert (Z.of_nat (length fl) < 2 ^ (w - 1)); [|lia].
        eapply BND; eauto. intros i k Hik. destruct (KD i k Hik) as (q & I & K0). exists q. split; auto. apply in_or_app. now left. }
      rewrite W1. eexists _, fl. split; [reflexivity|]. split; cbn [c_out c_unique c_first c_hash]; auto.
      * rewrite map_app. cbn [map]. rewrite KR. now apply (grouped_old _ _ _ _ g r).
      * rewrite app_length. simpl. lia.
      * intros y Hy. rewrite map_app. cbn [map]. rewrite KR. destruct (HA y Hy) as (h & Eh & D). exists h. split; auto.
        destruct D as [(-> & NK')|(g' & r' & -> & Eg' & Fr')]; [left|right].
        -- split; auto. intros j C. apply kept_snoc in C as [C|[_ [= C]]]; [now apply (NK' j)|]. subst y. destruct Fr as [Fr _]. now apply (NK' r).
        -- exists g', r'. split; auto. split; auto. now apply first_row_snoc.
  - assert (KR : krow H (x, p) = (x, false)) by (unfold krow; simpl; now rewrite P).
    eexists _, fl. split; [reflexivity|]. split; cbn [c_out c_unique c_first c_hash]; auto.
    + rewrite map_app. cbn [map]. rewrite KR. now apply grouped_skip.
    + rewrite app_length. simpl. lia.
    + intros y Hy. rewrite map_app. cbn [map]. rewrite KR. destruct (HA y Hy) as (h & Eh & D). exists h. split; auto.
      destruct D as [(-> & NK')|(g' & r' & -> & Eg' & Fr')]; [left|right].
      * split; auto. intros j C. apply kept_snoc in C as [C|[_ [= C]]]. now apply (NK' j).
      * exists g', r'. split; auto. split; auto. now apply first_row_snoc.
Qed.
Lemma comb_rows_ok w H n rows : 0 < w -> H <= 2 ^ 31 -> Z.of_nat n <= 2 ^ 31 -> forall done s fl, 
  (forall y q, In (y, q) (done ++ rows) -> - 2 ^ (w - 1) <= y < 2 ^ (w - 1)) -> (length done + length rows <= n)%nat ->
  cinv H n done s fl -> exists s' fl', comb_rows w H (Z.of_nat (length done)) rows s = Some s' /\ cinv H n (done ++ rows) s' fl'.
Proof.
  intros Hw HH HN. induction rows as [|[x p] rows IH]; intros done s fl HB L I.
  - rewrite app_nil_r. eexists _, _. split; [reflexivity|eauto].
  - cbn [comb_rows]. simpl length in L.
    destruct (comb_row_ok w H n done s fl x p) as (s1 & fl1 & E & I1); auto; try lia.
    { apply (HB x p). apply in_or_app. right. now left. } { intros y q Hy. apply (HB y q). apply in_or_app. now left. }
    rewrite E. destruct (IH (done ++ [(x, p)]) s1 fl1) as (s2 & fl2 & E2 & I2); auto.
    + intros y q. rewrite <- app_assoc. apply HB.
    + rewrite app_length. simpl. lia.
    + exists s2, fl2. rewrite <- app_assoc in I2. split; auto. rewrite <- E2. f_equal. rewrite app_length. simpl. lia.
Qed.
Lemma rows_filter_length (index : list Z) (filter : option (list bool)) : (forall f, filter = Some f -> length f = length index) -> length (rows_filter index filter) = length index.
Proof. intros H. unfold rows_filter. rewrite combine_length. destruct filter as [f|]; [rewrite (H f eq_refl)|rewrite repeat_length]; lia. Qed.
Lemma rows_filter_in index filter y q : In (y, q) (rows_filter index filter) -> In y index.
Proof. unfold rows_filter. apply in_combine_l. Qed.
Lemma rows_kept_krow max1 index filter : map (krow (max1 + 1)) (rows_filter index filter) = rows_kept max1 index filter.
Proof.
  unfold rows_kept, krow. apply map_ext. intros [x p]. simpl. f_equal. 
  replace (0 <? x) with (1 <=? x) by (destruct (Z.leb_spec 1 x), (Z.ltb_spec 0 x); lia || auto).
  replace (x <? max1 + 1) with (x <=? max1) by (destruct (Z.leb_spec x max1), (Z.ltb_spec x (max1 + 1)); lia || auto). reflexivity.
Qed.
Lemma Accum1_ok w index max1 filter garbage : 0 < w -> has_width w index -> Z.of_nat (length index) <= 2 ^ 31 -> -1 <= max1 < 2000000000 ->
  (forall f, filter = Some f -> length f = length index) -> length garbage = length index ->
  exists out first, CombineAccum1Filter w index max1 filter garbage = Ok (out, first, Z.of_nat (length first)) /\ grouped (rows_kept max1 index filter) out first.
Proof.
  intros Hw W N M LF LG. unfold CombineAccum1Filter.
  replace (match filter with Some f => negb (length index =? length f)%nat | None => false end) with false.
  2:{ destruct filter as [f|]; auto. rewrite (LF f eq_refl), Nat.eqb_refl. reflexivity. }
  destruct (Z.ltb_spec (max1 + 1) 0); [lia|]. destruct (Z.ltb_spec 2000000000 (max1 + 1)); [lia|]. cbn [orb].
  destruct (comb_rows_ok w (max1 + 1) (length index) (rows_filter index filter) Hw ltac:(lia) N [] 
    {| c_hash := repeat 0 (Z.to_nat (max1 + 1)); c_first := garbage; c_unique := 0; c_out := [] |} []) as (s & fl & E & I).
  - intros y q Hy. apply rows_filter_in in Hy. now apply W.
  - rewrite rows_filter_length by auto. simpl. lia.
  - split; cbn [c_out c_unique c_first c_hash]; auto.
    + apply grouped_nil.
    + rewrite repeat_length. lia.
    + intros x Hx. exists 0. split; [rewrite zrd_some, nth_error_repeat' by lia; destruct (Nat.ltb_spec (Z.to_nat x) (Z.to_nat (max1 + 1))); lia || auto|].
      left. split; auto. intros j C. unfold kept in C. destruct j; discriminate.
  - simpl in E. rewrite E. destruct I as [G U F _ _ _ _]. rewrite U, Nat2Z.id, F. exists (c_out s), fl. split; auto. simpl in G. now rewrite rows_kept_krow in G.
Qed.

(** ** MakeiFirst *)
Record finv (last : bool) (H : Z) (done : list (Z * bool)) (first : list Z) : Prop := {
  fi_len : Z.of_nat (length first) = H;
  fi_rows : forall g f, nth_error first g = Some f ->
    (exists r, f = Z.of_nat r /\ (if last then last_row done r (Z.of_nat g) else first_row done r (Z.of_nat g))) \/ (f = INVALID64 /\ forall r, ~ kept done r (Z.of_nat g))
}.
Lemma ifirst_row_ok last H done first x p : finv last H (map (krow H) done) first ->
  exists first', ifirst_row last H (Z.of_nat (length done)) x p first = Some first' /\ finv last H (map (krow H) (done ++ [(x, p)])) first'.
Proof.
  intros [L R]. unfold ifirst_row. rewrite map_app. cbn [map].
  assert (OLD : forall q g f, (snd q = false \/ fst q <> Z.of_nat g) -> nth_error first g = Some f ->
    (exists r, f = Z.of_nat r /\ (if last then last_row (map (krow H) done ++ [q]) r (Z.of_nat g) else first_row (map (krow H) done ++ [q]) r (Z.of_nat g))) \/ (f = INVALID64 /\ forall r, ~ kept (map (krow H) done ++ [q]) r (Z.of_nat g))).
  { intros q g f Hq E. assert (NQ : forall j, kept (map (krow H) done ++ [q]) j (Z.of_nat g) <-> kept (map (krow H) done) j (Z.of_nat g)).
    { intros j. rewrite kept_snoc. split; [|now left]. intros [C|[_ ->]]; auto. destruct Hq as [Hq|Hq]; simpl in Hq; [discriminate|congruence]. }
    destruct (R g f E) as [(r & -> & D)|(-> & D)]; [left|right].
    - exists r. split; auto. destruct last; destruct D as [D1 D2]; split; try (now apply NQ); intros j Hj C; apply NQ in C; now apply (D2 j).
    - split; auto. intros r C. apply NQ in C. now apply (D r). }
  destruct (p && (0 <? x) && (x <? H)) eqn:P.
  - assert (XR : 0 < x < H). { apply andb_true_iff in P as [P P2]. apply andb_true_iff in P as [_ P1]. apply Z.ltb_lt in P1, P2. lia. }
    assert (KR : krow H (x, p) = (x, true)) by (unfold krow; simpl; now rewrite P). rewrite KR.
    destruct last.
    + rewrite zwr_some by lia. eexists. split; [reflexivity|]. split; [now rewrite length_upd|]. intros g f E.
      destruct (Nat.eq_dec g (Z.to_nat x)) as [->|N].
      * rewrite nth_error_upd_eq in E by lia. injection E as <-. left. exists (length done). split; auto. rewrite Z2Nat.id by lia. split; [apply kept_snoc; right; rewrite map_length; auto|].
        intros j Hj C. apply kept_snoc in C as [C|[-> _]]; [|rewrite map_length in Hj; lia]. unfold kept in C. apply nth_error_Some_lt in C. rewrite map_length in C. lia.
      * rewrite nth_error_upd_neq in E by auto. apply OLD; auto. right. simpl. intros ->. rewrite Nat2Z.id in N. congruence.
    + rewrite zrd_some by lia. destruct (nth_error_lt first (Z.to_nat x)) as (f0 & E0); [lia|]. rewrite E0.
      destruct (R _ _ E0) as [(r & -> & D)|(-> & D)].
      * destruct (Z.eqb_spec (Z.of_nat r) INVALID64) as [C|_]; [unfold INVALID64 in C; lia|]. eexists. split; [reflexivity|]. split; auto. intros g f E.
        destruct (Nat.eq_dec g (Z.to_nat x)) as [->|N].
        -- rewrite E0 in E. injection E as <-. left. exists r. split; auto. now apply first_row_snoc.
        -- apply OLD; auto. right. simpl. intros ->. rewrite Nat2Z.id in N. congruence.
      * rewrite Z.eqb_refl. rewrite zwr_some by lia. eexists. split; [reflexivity|]. split; [now rewrite length_upd|]. intros g f E.
        destruct (Nat.eq_dec g (Z.to_nat x)) as [->|N].
        -- rewrite nth_error_upd_eq in E by lia. injection E as <-. left. exists (length done). split; auto. rewrite Z2Nat.id in * by lia. split; [apply kept_snoc; right; rewrite map_length; auto|].
           intros j Hj C. apply kept_snoc in C as [C|[-> _]]; [now apply (D j)|rewrite map_length in Hj; lia].
        -- rewrite nth_error_upd_neq in E by auto. apply OLD; auto. right. simpl. intros ->. rewrite Nat2Z.id in N. congruence.
  - assert (KR : krow H (x, p) = (x, false)) by (unfold krow; simpl; now rewrite P). rewrite KR. eexists. split; [reflexivity|]. split; auto.
Qed.
Lemma ifirst_rows_ok last H rows : forall done first, finv last H (map (krow H) done) first ->
  exists first', ifirst_rows last H (Z.of_nat (length done)) rows first = Some first' /\ finv last H (map (krow H) (done ++ rows)) first'.
Proof.
  induction rows as [|[x p] rows IH]; intros done first I; [rewrite app_nil_r; eexists; split; [reflexivity|auto]|]. cbn [ifirst_rows].
  destruct (ifirst_row_ok last H done first x p I) as (f1 & E & I1). rewrite E. destruct (IH _ _ I1) as (f2 & E2 & I2). exists f2.
  rewrite <- app_assoc in I2. split; auto. rewrite <- E2. f_equal. rewrite app_length. simpl. lia.
Qed.
Lemma MakeiFirst_ok index max1 filter last : -1 <= max1 < 20000000000 -> (forall f, filter = Some f -> length f = length index) ->
  exists first, MakeiFirst index max1 filter last = Ok first /\ rows_of_groups last max1 (rows_kept max1 index filter) first.
Proof.
  intros M LF. unfold MakeiFirst.
  replace (match filter with Some f => negb (length index =? length f)%nat | None => false end) with false.
  2:{ destruct filter as [f|]; auto. rewrite (LF f eq_refl), Nat.eqb_refl. reflexivity. }
  destruct (Z.ltb_spec (max1 + 1) 0); [lia|]. destruct (Z.ltb_spec 20000000000 (max1 + 1)); [lia|]. cbn [orb].
  destruct (ifirst_rows_ok last (max1 + 1) (rows_filter index filter) [] (repeat INVALID64 (Z.to_nat (max1 + 1)))) as (f & E & [L R]).
  - split; [rewrite repeat_length; lia|]. intros g f E. rewrite nth_error_repeat' in E. destruct (g <? Z.to_nat (max1 + 1))%nat; [|discriminate]. injection E as <-.
    right. split; auto. intros r C. unfold kept in C. destruct r; discriminate.
  - simpl in E. rewrite E. exists f. split; auto. simpl in R. rewrite rows_kept_krow in R. split; auto.
Qed.

(** ** Trailing spaces *)
Lemma trim_loop_ok p : forall s0 s, (p <= length s)%nat -> length s = length s0 -> firstn p s = firstn p s0 -> skipn p s = repeat 0 (length s0 - p) -> (forall c, In c (skipn p s0) -> blank c = true) ->
  trimmed s0 (trim_loop p s).
Proof.
  induction p as [|q IH]; intros s0 s L LL F SK B.
  - simpl. exists 0%nat. split; [lia|]. simpl in *. rewrite Nat.sub_0_r in *. split; auto. split; auto. intros; lia.
  - cbn [trim_loop]. destruct (nth_error_lt s q) as (c & E); [lia|]. rewrite E.
    assert (E0 : nth_error s0 q = Some c).
    { assert (X : nth_error (firstn (S q) s) q = nth_error (firstn (S q) s0) q) by now rewrite F. rewrite !nth_error_firstn in X. destruct (Nat.ltb_spec q (S q)); [|lia]. congruence. }
    fold (blank c). destruct (blank c) eqn:BC.
    + apply IH; rewrite ?length_upd; auto; try lia.
      * apply list_ext. intros i. rewrite !nth_error_firstn. destruct (Nat.ltb_spec i q); auto. rewrite nth_error_upd_neq by lia.
        assert (X : nth_error (firstn (S q) s) i = nth_error (firstn (S q) s0) i) by now rewrite F. rewrite !nth_error_firstn in X. destruct (Nat.ltb_spec i (S q)); [auto|lia].
      * apply list_ext. intros i. rewrite nth_error_skipn, nth_error_repeat'. destruct i as [|i].
        -- rewrite Nat.add_0_r, nth_error_upd_eq by lia. destruct (Nat.ltb_spec 0 (length s0 - q)); [auto|lia].
        -- rewrite nth_error_upd_neq by lia. assert (X : nth_error (skipn (S q) s) i = nth_error (repeat 0 (length s0 - S q)) i) by now rewrite SK.
           rewrite nth_error_skipn, nth_error_repeat' in X. replace (q + S i)%nat with (S q + i)%nat by lia. rewrite X.
           destruct (Nat.ltb_spec i (length s0 - S q)), (Nat.ltb_spec (S i) (length s0 - q)); auto; lia.
      * intros d Hd. apply In_nth_error in Hd as (i & Hd). rewrite nth_error_skipn in Hd. destruct i as [|i]; [rewrite Nat.add_0_r in Hd; congruence|].
        apply B. apply (nth_error_In _ i). rewrite nth_error_skipn. rewrite <- Hd. f_equal. lia.
    + exists (S q). split; [lia|]. split; [rewrite <- F, <- SK; symmetry; apply firstn_skipn|]. split; auto.
      intros d Hd _. simpl in Hd. rewrite Nat.sub_0_r in Hd. congruence.
Qed.
Lemma trim_ok s : trimmed s (trim s).
Proof.
  unfold trim. apply trim_loop_ok; auto.
  - rewrite skipn_all, Nat.sub_diag. reflexivity.
  - rewrite skipn_all. intros c [].
Qed.
Lemma trimmed_length s r : trimmed s r -> length r = length s.
Proof. intros (k & L & -> & _). rewrite app_length, firstn_length, repeat_length. lia. Qed.
Lemma TrailingSpaces_ok n w : forall chars i, length chars = (n * w)%nat -> (i < n)%nat ->
  length (TrailingSpaces n w chars) = length chars /\ trimmed (firstn w (skipn (i * w) chars)) (firstn w (skipn (i * w) (TrailingSpaces n w chars))).
Proof.
  induction n as [|n IH]; intros chars i L Hi; [lia|]. cbn [TrailingSpaces].
  assert (LF : length (firstn w chars) = w) by (rewrite firstn_length; lia).
  assert (LT : length (trim (firstn w chars)) = w) by (rewrite (trimmed_length _ _ (trim_ok _)); auto).
  assert (LS : length (skipn w chars) = (n * w)%nat) by (rewrite skipn_length; lia).
  assert (LL : length (TrailingSpaces n w (skipn w chars)) = length (skipn w chars)).
  { destruct n as [|n']; [reflexivity|]. apply (IH (skipn w chars) 0%nat); auto. lia. }
  split; [rewrite app_length, LT, LL, LS; lia|].
  destruct i as [|i].
  - simpl. rewrite firstn_app, LT, Nat.sub_diag, firstn_O, app_nil_r. rewrite (firstn_all2 (trim _)) by lia. apply trim_ok.
  - replace (S i * w)%nat with (w + i * w)%nat by lia.
    replace (skipn (w + i * w) (trim (firstn w chars) ++ TrailingSpaces n w (skipn w chars))) with (skipn (i * w) (TrailingSpaces n w (skipn w chars))).
    2:{ rewrite skipn_app, LT. rewrite (skipn_all2 (trim _)) by lia. simpl. f_equal. lia. }
    replace (skipn (w + i * w) chars) with (skipn (i * w) (skipn w chars)).
    2:{ apply list_ext. intros j. rewrite !nth_error_skipn. f_equal. lia. }
    apply IH; auto. lia.
Qed.

Lemma string_copy_ok n w w2 : (w <= w2)%nat -> forall bytes i, length bytes = (n * w)%nat -> (i < n)%nat ->
  length (ConvertSafeStringCopy n w w2 bytes) = (n * w2)%nat /\
  part_of w2 (ConvertSafeStringCopy n w w2 bytes) i = part_of w bytes i ++ repeat 0 (w2 - w).
Proof.
  intros W. unfold part_of. induction n as [|n IH]; intros bytes i L Hi; [lia|]. cbn [ConvertSafeStringCopy].
  assert (LF : length (firstn w bytes) = w) by (rewrite firstn_length; lia).
  set (hd := if (w =? w2)%nat then firstn w bytes else if (w <? w2)%nat then firstn w bytes ++ repeat 0 (w2 - w) else firstn w2 bytes).
  assert (HE : hd = firstn w bytes ++ repeat 0 (w2 - w)).
  { unfold hd. destruct (Nat.eqb_spec w w2) as [->|]; [rewrite Nat.sub_diag; simpl; now rewrite app_nil_r|]. destruct (Nat.ltb_spec w w2); [auto|lia]. }
  clearbody hd. subst hd.
  assert (LH : length (firstn w bytes ++ repeat 0 (w2 - w)) = w2) by (rewrite app_length, repeat_length; lia).
  assert (LS : length (skipn w bytes) = (n * w)%nat) by (rewrite skipn_length; lia).
  assert (LL : length (ConvertSafeStringCopy n w w2 (skipn w bytes)) = (n * w2)%nat).
  { destruct n as [|n']; [reflexivity|]. apply (IH (skipn w bytes) 0%nat); auto. lia. }
  split; [rewrite app_length, LH, LL; lia|].
  destruct i as [|i].
  - cbn [Nat.mul skipn]. rewrite firstn_app, LH, Nat.sub_diag, firstn_O, app_nil_r. now rewrite firstn_all2 by lia.
  - replace (S i * w2)%nat with (w2 + i * w2)%nat by lia. replace (S i * w)%nat with (w + i * w)%nat by lia.
    rewrite skipn_app, LH. rewrite (skipn_all2 (firstn w bytes ++ _)) by lia. cbn [app]. replace (w2 + i * w2 - w2)%nat with (i * w2)%nat by lia.
    replace (skipn (w + i * w) bytes) with (skipn (i * w) (skipn w bytes)).
    2:{ apply list_ext. intros j. rewrite !nth_error_skipn. f_equal. lia. }
    apply IH; auto. lia.
Qed.

(** ** Shift *)
Section Shift.
  Context {A : Type}.
  Implicit Types l : list A.
  Lemma memmove_ok dst src n l : 0 <= n -> 0 <= dst -> 0 <= src -> dst + n <= Z.of_nat (length l) -> src + n <= Z.of_nat (length l) ->
    exists l', memmove dst src n l = Some l' /\ length l' = length l /\ forall i, nth_error l' i =
      if (dst <=? Z.of_nat i) && (Z.of_nat i <? dst + n) then nth_error l (Z.to_nat (Z.of_nat i - dst + src)) else nth_error l i.
  Proof.
    intros Hn Hd Hs H1 H2. unfold memmove.
    replace ((0 <=? n) && (0 <=? dst) && (0 <=? src) && (dst + n <=? Z.of_nat (length l)) && (src + n <=? Z.of_nat (length l))) with true.
    2:{ symmetry. rewrite !andb_true_iff, !Z.leb_le. lia. }
    eexists. split; [reflexivity|].
    assert (LA : length (firstn (Z.to_nat dst) l) = Z.to_nat dst) by (rewrite firstn_length; lia).
    assert (LB : length (firstn (Z.to_nat n) (skipn (Z.to_nat src) l)) = Z.to_nat n) by (rewrite firstn_length, skipn_length; lia).
    split; [rewrite !app_length, LA, LB, skipn_length; lia|].
    intros i. destruct (Z.leb_spec dst (Z.of_nat i)), (Z.ltb_spec (Z.of_nat i) (dst + n)); cbn [andb].
    - rewrite nth_error_app2, LA by lia. rewrite nth_error_app1, nth_error_firstn by lia. destruct (Nat.ltb_spec (i - Z.to_nat dst) (Z.to_nat n)); [|lia].
      rewrite nth_error_skipn. f_equal. lia.
    - rewrite nth_error_app2, LA by lia. rewrite nth_error_app2, LB, nth_error_skipn by lia. f_equal. lia.
    - rewrite nth_error_app1, nth_error_firstn by lia. destruct (Nat.ltb_spec i (Z.to_nat dst)); [auto|lia].
    - lia.
  Qed.
  Lemma shift_flat_ok k l : exists l', shift_flat k l = Some l' /\ shifted k l l'.
  Proof.
    unfold shift_flat. destruct (Z.ltb_spec k 0).
    - destruct (Z.ltb_spec 0 (Z.of_nat (length l) + k)).
      + destruct (memmove_ok (- k) 0 (Z.of_nat (length l) + k) l) as (l' & E & L & R); try lia. exists l'. split; auto. split; auto. intros i Hi. rewrite R.
        destruct (Z.leb_spec (- k) (Z.of_nat i)), (Z.ltb_spec (Z.of_nat i) (- k + (Z.of_nat (length l) + k))), (Z.leb_spec 0 (Z.of_nat i + k)), (Z.ltb_spec (Z.of_nat i + k) (Z.of_nat (length l))); try lia; cbn [andb]; auto.
        f_equal. lia.
      + exists l. split; auto. split; auto. intros i Hi. destruct (Z.leb_spec 0 (Z.of_nat i + k)); [lia|]. auto.
    - destruct (Z.ltb_spec 0 (Z.of_nat (length l) - k)).
      + destruct (memmove_ok 0 k (Z.of_nat (length l) - k) l) as (l' & E & L & R); try lia. exists l'. split; auto. split; auto. intros i Hi. rewrite R.
        destruct (Z.leb_spec 0 (Z.of_nat i)), (Z.ltb_spec (Z.of_nat i) (0 + (Z.of_nat (length l) - k))), (Z.leb_spec 0 (Z.of_nat i + k)), (Z.ltb_spec (Z.of_nat i + k) (Z.of_nat (length l))); try lia; cbn [andb]; auto.
        f_equal. lia.
      + exists l. split; auto. split; auto. intros i Hi. destruct (Z.ltb_spec (Z.of_nat i + k) (Z.of_nat (length l))); [lia|]. now rewrite andb_false_r.
  Qed.
  Lemma shift_cols_ok cols dst src move rows : (0 < rows)%nat -> 0 <= dst -> 0 <= src -> 0 <= move -> dst + move <= Z.of_nat rows -> src + move <= Z.of_nat rows ->
    forall b l, length l = ((b + cols) * rows)%nat ->
    exists l', shift_cols cols (dst + Z.of_nat (b * rows)) (src + Z.of_nat (b * rows)) move (Z.of_nat rows) l = Some l' /\ length l' = length l /\
    forall c r, (r < rows)%nat -> (c < b + cols)%nat -> nth_error l' (c * rows + r) =
      if (b <=? c)%nat && (dst <=? Z.of_nat r) && (Z.of_nat r <? dst + move) then nth_error l (c * rows + Z.to_nat (Z.of_nat r - dst + src)) else nth_error l (c * rows + r).
  Proof.
    intros Hr Hd Hs Hm H1 H2. induction cols as [|cols IH]; intros b l L.
    - exists l. split; auto. split; auto. intros c r R C. destruct (Nat.leb_spec b c); [lia|]. reflexivity.
    - cbn [shift_cols]. destruct (memmove_ok (dst + Z.of_nat (b * rows)) (src + Z.of_nat (b * rows)) move l) as (l1 & E & L1 & R1); try nia.
      rewrite E. destruct (IH (S b) l1) as (l2 & E2 & L2 & R2); [rewrite L1, L; f_equal; lia|].
      exists l2. split; [rewrite <- E2; f_equal; lia|]. split; [lia|]. intros c r R C. rewrite R2 by lia.
      assert (X : forall c' r', (r' < rows)%nat -> nth_error l1 (c' * rows + r') =
        if (c' =? b)%nat && (dst <=? Z.of_nat r') && (Z.of_nat r' <? dst + move) then nth_error l (c' * rows + Z.to_nat (Z.of_nat r' - dst + src)) else nth_error l (c' * rows + r')).
      { intros c' r' R'. rewrite R1. destruct (Nat.eqb_spec c' b) as [->|N]; cbn [andb].
        - destruct (Z.leb_spec dst (Z.of_nat r')), (Z.ltb_spec (Z.of_nat r') (dst + move)), (Z.leb_spec (dst + Z.of_nat (b * rows)) (Z.of_nat (b * rows + r'))), (Z.ltb_spec (Z.of_nat (b * rows + r')) (dst + Z.of_nat (b * rows) + move)); try lia; cbn [andb]; auto.
          f_equal. lia.
        - destruct (Z.leb_spec (dst + Z.of_nat (b * rows)) (Z.of_nat (c' * rows + r'))), (Z.ltb_spec (Z.of_nat (c' * rows + r')) (dst + Z.of_nat (b * rows) + move)); cbn [andb]; auto.
          exfalso. assert (c' = b) by nia. auto. }
      destruct (Nat.leb_spec (S b) c), (Nat.leb_spec b c); try lia; cbn [andb].
      + destruct (Z.leb_spec dst (Z.of_nat r)), (Z.ltb_spec (Z.of_nat r) (dst + move)); cbn [andb].
        * rewrite X by lia. destruct (Nat.eqb_spec c b); [lia|]. reflexivity.
        * rewrite X by lia. destruct (Nat.eqb_spec c b); [lia|]. reflexivity.
        * rewrite X by lia. destruct (Nat.eqb_spec c b); [lia|]. reflexivity.
        * rewrite X by lia. destruct (Nat.eqb_spec c b); [lia|]. reflexivity.
      + assert (c = b) by lia. subst c. rewrite X by lia. rewrite Nat.eqb_refl. reflexivity.
      + rewrite X by lia. destruct (Nat.eqb_spec c b); [lia|]. reflexivity.
  Qed.
  Lemma shift_fortran_ok rows cols k l : (0 < rows)%nat -> length l = (cols * rows)%nat ->
    exists l', shift_fortran rows cols k l = Some l' /\ length l' = length l /\ forall c, (c < cols)%nat -> shifted k (part_of rows l c) (part_of rows l' c).
  Proof.
    intros Hr L.
    assert (PL : forall (m : list A) c, length m = (cols * rows)%nat -> (c < cols)%nat -> length (part_of rows m c) = rows) by (intros m c Lm Hc; unfold part_of; rewrite firstn_length, skipn_length; nia).
    assert (PN : forall (m : list A) c i, (i < rows)%nat -> nth_error (part_of rows m c) i = nth_error m (c * rows + i)) by (intros m c i Hi; unfold part_of; rewrite nth_error_firstn, nth_error_skipn; destruct (Nat.ltb_spec i rows); [auto|lia]).
    unfold shift_fortran. destruct (Z.ltb_spec k 0).
    - destruct (Z.ltb_spec 0 (Z.of_nat rows + k)).
      + destruct (shift_cols_ok cols (- k) 0 (Z.of_nat rows + k) rows) with (b := 0%nat) (l := l) as (l' & E & L' & R); auto; try lia.
        change (Z.of_nat (0 * rows)) with 0 in E. rewrite !Z.add_0_r in E. exists l'. split; auto. split; auto. intros c Hc. split; [rewrite !PL by congruence; auto|].
        intros i. rewrite PL by auto. intros Hi. rewrite PN, R by lia. cbn [Nat.leb andb].
        destruct (Z.leb_spec (- k) (Z.of_nat i)), (Z.ltb_spec (Z.of_nat i) (- k + (Z.of_nat rows + k))), (Z.leb_spec 0 (Z.of_nat i + k)), (Z.ltb_spec (Z.of_nat i + k) (Z.of_nat rows)); try lia; cbn [andb]; rewrite ?PN by lia; auto.
        f_equal. lia.
      + exists l. split; auto. split; auto. intros c Hc. split; auto. intros i. rewrite PL by auto. intros Hi. destruct (Z.leb_spec 0 (Z.of_nat i + k)); [lia|]. auto.
    - destruct (Z.ltb_spec 0 (Z.of_nat rows - k)).
      + destruct (shift_cols_ok cols 0 k (Z.of_nat rows - k) rows) with (b := 0%nat) (l := l) as (l' & E & L' & R); auto; try lia.
        change (Z.of_nat (0 * rows)) with 0 in E. rewrite !Z.add_0_r in E. exists l'. split; auto. split; auto. intros c Hc. split; [rewrite !PL by congruence; auto|].
        intros i. rewrite PL by auto. intros Hi. rewrite PN, R by lia. cbn [Nat.leb andb].
        destruct (Z.leb_spec 0 (Z.of_nat i)), (Z.ltb_spec (Z.of_nat i) (0 + (Z.of_nat rows - k))), (Z.leb_spec 0 (Z.of_nat i + k)), (Z.ltb_spec (Z.of_nat i + k) (Z.of_nat rows)); try lia; cbn [andb]; rewrite ?PN by lia; auto.
        f_equal. lia.
      + exists l. split; auto. split; auto. intros c Hc. split; auto. intros i. rewrite PL by auto. intros Hi. destruct (Z.ltb_spec (Z.of_nat i + k) (Z.of_nat rows)); [lia|]. now rewrite andb_false_r.
  Qed.
End Shift.
Lemma ShiftArray_fortran_ok {A} rows cols k (l : list A) : (1 < rows)%nat -> length l = (cols * rows)%nat ->
  exists l', ShiftArray [rows; cols] [1; Z.of_nat rows] k l = Some l' /\ length l' = length l /\ forall c, (c < cols)%nat -> shifted k (part_of rows l c) (part_of rows l' c).
Proof. intros R L. unfold ShiftArray. destruct (Z.ltb_spec 1 (Z.of_nat rows)); [|lia]. apply shift_fortran_ok; auto. lia. Qed.
Lemma ShiftArray_safe {A} dims strides k (l : list A) : (forall rows cols, dims = [rows; cols] -> (0 < rows)%nat /\ length l = (cols * rows)%nat) ->
  exists l', ShiftArray dims strides k l = Some l' /\ length l' = length l.
Proof.
  intros H. assert (F : exists l', shift_flat k l = Some l' /\ length l' = length l) by (destruct (shift_flat_ok k l) as (l' & E & L & _); eauto).
  unfold ShiftArray. destruct strides as [|s0 [|s1 rest]]; auto. destruct (s0 <? s1); auto. destruct rest; [|eauto].
  destruct dims as [|r [|c [|]]]; eauto. destruct (H r c eq_refl) as [R L]. destruct (shift_fortran_ok r c k l R L) as (l' & E & L' & _). eauto.
Qed.
