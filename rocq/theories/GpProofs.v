(** Proofs about GroupByPack32 with a next array, and from its arguments to its results. *)
From Verif Require Import Base Mem MemLemmas Inter AllModel EaModel EaSpec Ea2Proofs.
From Verif Require Import GroupModel GroupSpec GroupProofs Group2Proofs Group3Proofs GpModel GpSpec.
From Verif Require GroupProps BgSpec BgModel BgProofs.
Local Open Scope Z_scope.

Lemma linked_rows keys next : linked keys next -> forall h l1 j l2, rows_with keys h = l1 ++ j :: l2 -> 0 <= j /\ zrd next j = Some (hd (-1) l2).
Proof.
  intros (L & H) h l1 j l2 E. destruct (rows_with_split _ _ _ _ _ E) as (k & -> & Hk & P1 & P2 & O2 & O1). split; [lia|].
  pose proof (nth_error_Some_lt _ _ _ Hk) as B. destruct (H k B) as (r & Er & NS). rewrite zrd_some by lia. rewrite Nat2Z.id, Er. f_equal.
  destruct NS as [(j & -> & KJ & Ej & LJ & NO)|(-> & NO)].
  - rewrite Hk in Ej. assert (I : In (Z.of_nat j) l2) by (apply P2; exists j; repeat split; auto). destruct l2 as [|x a]; [destruct I|]. cbn [hd].
    pose proof (O2 x _ a eq_refl I) as LE. destruct (proj1 (P2 x) (or_introl eq_refl)) as (j' & -> & K' & E'). destruct (Nat.lt_ge_cases j' j) as [C|C]; [|lia].
    exfalso. apply (NO j' ltac:(lia)). congruence.
  - destruct l2 as [|x a]; [reflexivity|]. exfalso. destruct (proj1 (P2 x) (or_introl eq_refl)) as (j' & -> & K' & E').
    apply (NO j'); [|congruence]. pose proof (nth_error_Some_lt _ _ _ E'). lia.
Qed.

(** The groups [done] one after the other. *)
Definition packed_of (keys done : list Z) : list Z := concat (map (rows_with keys) done).
Lemma packed_of_app keys a b : packed_of keys (a ++ b) = packed_of keys a ++ packed_of keys b.
Proof. unfold packed_of. now rewrite map_app, concat_app. Qed.
Lemma packed_of_one keys g : packed_of keys [g] = rows_with keys g.
Proof. unfold packed_of. cbn. apply app_nil_r. Qed.
Lemma packed_of_in keys done i : In i (packed_of keys done) <-> exists g, In g done /\ In i (rows_with keys g).
Proof.
  unfold packed_of. rewrite in_concat. split.
  - intros (l & Hl & Hi). apply in_map_iff in Hl as (g & <- & Hg). eauto.
  - intros (g & Hg & Hi). exists (rows_with keys g). split; auto. now apply in_map.
Qed.
Lemma packed_of_nodup keys done : NoDup done -> NoDup (packed_of keys done).
Proof.
  intros N. unfold packed_of. apply NoDup_concat_disjoint; [exact N|intros; apply rows_with_nodup|].
  intros a b x _ _ Ha Hb. apply rows_with_in in Ha as (k & -> & Hk). apply rows_with_in in Hb as (k' & E & Hk'). assert (k = k') by lia. subst. congruence.
Qed.
Lemma packed_of_le keys done : NoDup done -> (length (packed_of keys done) <= length keys)%nat.
Proof.
  intros N. rewrite <- (seq_length (length keys) 0), <- (map_length Z.of_nat). fold (zseq (length keys)).
  apply NoDup_incl_length; [now apply packed_of_nodup|]. intros i Hi. apply packed_of_in in Hi as (g & _ & Hi).
  apply rows_with_in in Hi as (k & -> & Hk). apply nth_error_Some_lt in Hk. apply zseq_in. lia.
Qed.
Lemma packed_of_perm keys done : NoDup done -> (forall g, In g keys -> In g done) -> Permutation (packed_of keys done) (zseq (length keys)).
Proof.
  intros N H. apply NoDup_Permutation; [now apply packed_of_nodup|apply zseq_nodup|]. intros i. rewrite packed_of_in, zseq_in. split.
  - intros (g & _ & Hi). apply rows_with_in in Hi as (k & -> & Hk). apply nth_error_Some_lt in Hk. lia.
  - intros Hi. destruct (nth_error_lt keys (Z.to_nat i)) as [g Hg]; [lia|]. exists g. split; [apply H; eapply nth_error_In; eauto|]. apply rows_with_in. exists (Z.to_nat i). split; auto. lia.
Qed.

Definition inv (keys s0 f0 c0 : list Z) (done : list Z) (p : packed) : Prop :=
  p_running p = Z.of_nat (length (packed_of keys done)) /\ writes (enum 1 0 (packed_of keys done)) s0 = Some (p_sort p) /\
  length (p_first p) = length f0 /\ length (p_count p) = length c0 /\
  (forall a g b, done = a ++ g :: b -> nth_error (p_first p) (Z.to_nat g) = Some (Z.of_nat (length (packed_of keys a))) /\ nth_error (p_count p) (Z.to_nat g) = Some (count_of keys g)) /\
  (forall g, 0 <= g -> ~ In g done -> nth_error (p_first p) (Z.to_nat g) = nth_error f0 (Z.to_nat g) /\ nth_error (p_count p) (Z.to_nat g) = nth_error c0 (Z.to_nat g)).
Lemma group_step keys next s0 f0 c0 done p g j : linked keys next -> length s0 = length keys -> inv keys s0 f0 c0 done p -> NoDup (done ++ [g]) -> Forall (Z.le 0) done ->
  0 <= g < Z.of_nat (length f0) -> length c0 = length f0 -> j = hd (-1) (rows_with keys g) ->
  exists p', pack_group j g next p = Some p' /\ inv keys s0 f0 c0 (done ++ [g]) p'.
Proof.
  intros LK Ls (I1 & I2 & I3 & I4 & I5 & I6) N PO HG LC ->. unfold pack_group. rewrite zwr_some by lia.
  pose proof (writes_length _ _ _ I2) as LS. pose proof (packed_of_le keys _ N) as HL. rewrite packed_of_app, packed_of_one, app_length in HL.
  destruct (chain_spec next (rows_with keys g) (S (length (p_sort p))) (p_running p) (p_sort p) (hd (-1) (rows_with keys g))) as (out & -> & W); auto; try lia.
  { intros l1 j l2 E. exact (linked_rows keys next LK g l1 j l2 E). }
  rewrite zwr_some by lia. eexists. split; [reflexivity|]. assert (NG : ~ In g done).
  { intros I. apply NoDup_remove_2 in N. rewrite app_nil_r in N. contradiction. }
  unfold inv. cbn [p_running p_sort p_first p_count]. rewrite !length_upd, packed_of_app, packed_of_one, app_length. split; [lia|]. split.
  { rewrite enum_app, writes_app_some, I2, <- W, I1. f_equal. f_equal. lia. }
  split; [exact I3|]. split; [exact I4|]. split.
  - intros a h b E. rewrite !nth_error_upd.
    destruct (Nat.eqb_spec (Z.to_nat g) (Z.to_nat h)) as [EQ|NE].
    + assert (h = g) as ->. { assert (In h (done ++ [g])) as I by (rewrite E; apply in_elt). apply in_app_or in I as [I|[I|[]]]; [|now symmetry]. pose proof (proj1 (Forall_forall _ _) PO h I). lia. }
      assert (a = done) as ->.
      { rewrite E in N. pose proof (NoDup_remove_2 _ _ _ N) as NR. destruct b as [|x b] using rev_ind.
        - apply app_inj_tail in E. symmetry. apply E.
        - exfalso. change (g :: b ++ [x]) with ((g :: b) ++ [x]) in E. rewrite app_assoc in E. apply app_inj_tail in E as [_ <-]. apply NR. apply in_or_app. right. apply in_or_app. right. now left. }
      rewrite !(proj2 (Nat.ltb_lt _ _)) by lia. cbn. split; f_equal; [exact I1|]. rewrite rows_with_length. lia.
    + assert (NH : h <> g) by (intros ->; contradiction). destruct b as [|x b] using rev_ind.
      * apply app_inj_tail in E as [_ E]. congruence.
      * change (h :: b ++ [x]) with ((h :: b) ++ [x]) in E. rewrite app_assoc in E. apply app_inj_tail in E as [E _]. exact (I5 a h b E).
  - intros h Ph NH. rewrite !nth_error_upd. destruct (Nat.eqb_spec (Z.to_nat g) (Z.to_nat h)) as [EQ|NE].
    + exfalso. apply NH. apply in_or_app. right. left. lia.
    + apply I6; [exact Ph|]. intros I. apply NH. apply in_or_app. now left.
Qed.

Definition upto (a : nat) (m : nat) : list Z := map Z.of_nat (seq a m).
Lemma first_row keys i g : nth_error keys i = Some g -> (forall j, (j < i)%nat -> nth_error keys j <> Some g) -> Z.of_nat i = hd (-1) (rows_with keys g).
Proof.
  intros E NO. destruct (rows_with_at _ _ _ E) as (l1 & l2 & ES). destruct (rows_with_split _ _ _ _ _ ES) as (k & Ek & Hk & P1 & _). apply Nat2Z.inj in Ek. subst k.
  rewrite ES. destruct l1 as [|x l1]; [reflexivity|]. exfalso. destruct (proj1 (P1 x) (or_introl eq_refl)) as (j & _ & B & Ej). exact (NO j B Ej).
Qed.
Lemma scan_step keys next s0 f0 c0 u pre : linked keys next -> length s0 = length keys -> first_order (Z.of_nat u) keys -> length f0 = S u -> length c0 = length f0 ->
  (pre = [] \/ pre = [0]) -> forall tail i L p, skipn i keys = tail -> (1 <= L <= S u)%nat -> (forall j k, (j < i)%nat -> nth_error keys j = Some k -> k < Z.of_nat L) ->
  inv keys s0 f0 c0 (pre ++ upto 1 (L - 1)) p ->
  exists p', pack_scan (enum 1 (Z.of_nat i) tail) next (Z.of_nat L) p = Some p' /\ inv keys s0 f0 c0 (pre ++ upto 1 u) p'.
Proof.
  intros LK Ls (AR & FO) LF LC HP tail. induction tail as [|g tail IH]; intros i L p ET HL IV INV; cbn [enum pack_scan].
  - exists p. split; [reflexivity|]. assert (L = S u) as ->.
    { destruct (Nat.eq_dec L (S u)); auto. exfalso. destruct (FO (Z.of_nat L) ltac:(lia)) as (j & Ej & _). pose proof (nth_error_Some_lt _ _ _ Ej) as B.
      assert (LE : (length keys <= i)%nat) by (pose proof (skipn_length i keys) as X; rewrite ET in X; cbn in X; lia). specialize (IV j _ ltac:(lia) Ej). lia. }
    replace (S u - 1)%nat with u in INV by lia. exact INV.
  - assert (EG : nth_error keys i = Some g) by (rewrite <- (Nat.add_0_r i), <- nth_error_skipn, ET; reflexivity).
    assert (ET' : skipn (S i) keys = tail) by (change (S i) with (1 + i)%nat; rewrite Nat.add_comm; rewrite <- skipn_skipn', ET; reflexivity).
    pose proof (AR g (nth_error_In _ _ EG)) as RG. replace (Z.of_nat i + 1) with (Z.of_nat (S i)) by lia.
    destruct (Z.eqb_spec g (Z.of_nat L)) as [-> |NE].
    + destruct (group_step keys next s0 f0 c0 (pre ++ upto 1 (L - 1)) p (Z.of_nat L) (Z.of_nat i) LK Ls INV) as (p' & EP & INV').
      * rewrite <- app_assoc. replace (upto 1 (L - 1) ++ [Z.of_nat L]) with (upto 1 L).
        2: { unfold upto. replace L with (S (L - 1)) at 1 by lia. rewrite seq_S, map_app. cbn [map]. do 3 f_equal. lia. }
        assert (NU : NoDup (upto 1 L)) by (unfold upto; apply FinFun.Injective_map_NoDup; [intros x y; lia|apply seq_NoDup]).
        destruct HP as [-> | ->]; [exact NU|]. cbn [app]. constructor; [|exact NU]. unfold upto. intros I. apply in_map_iff in I as (x & Ex & Hx). apply in_seq in Hx. lia.
      * apply Forall_app. split; [destruct HP as [-> | ->]; repeat constructor; lia|]. apply Forall_forall. intros x I. unfold upto in I. apply in_map_iff in I as (y & <- & _). lia.
      * lia.
      * exact LC.
      * apply first_row; [exact EG|]. intros j B Ej. specialize (IV j _ B Ej). lia.
      * rewrite EP. replace (Z.of_nat L + 1) with (Z.of_nat (S L)) by lia. apply IH; [exact ET'|lia| |].
        -- intros j k B Ej. destruct (Nat.eq_dec j i) as [-> |]; [rewrite EG in Ej; injection Ej as <-; lia|]. specialize (IV j k ltac:(lia) Ej). lia.
        -- rewrite <- app_assoc in INV'. replace (upto 1 (S L - 1)) with (upto 1 (L - 1) ++ [Z.of_nat L]); [exact INV'|].
           unfold upto. replace (S L - 1)%nat with (S (L - 1)) by lia. rewrite seq_S, map_app. cbn [map]. do 3 f_equal. lia.
    + apply IH; [exact ET'|exact HL| |exact INV]. intros j k B Ej. destruct (Nat.eq_dec j i) as [-> |]; [|exact (IV j k ltac:(lia) Ej)].
      rewrite EG in Ej. injection Ej as <-. destruct (Z.lt_ge_cases g (Z.of_nat L)) as [C|C]; [exact C|]. exfalso.
      destruct (FO (Z.of_nat L) ltac:(lia)) as (m & Em & BM). destruct (Nat.lt_trichotomy m i) as [T|[T|T]].
      * specialize (IV m _ T Em). lia.
      * subst m. congruence.
      * specialize (BM i g T EG). lia.
Qed.
Lemma filtered_none rows next p : (forall i g, In (i, g) rows -> g <> 0) -> pack_filtered rows next p = Some p.
Proof.
  induction rows as [|[i g] rows IH]; intros H; [reflexivity|]. cbn [pack_filtered]. rewrite (proj2 (Z.eqb_neq g 0)) by (apply (H i); now left). apply IH. intros. eapply H. right. eauto.
Qed.
Lemma filtered_found next p keys : forall tail i, skipn i keys = tail -> (forall j, (j < i)%nat -> nth_error keys j <> Some 0) -> In 0 tail ->
  pack_filtered (enum 1 (Z.of_nat i) tail) next p = pack_group (hd (-1) (rows_with keys 0)) 0 next p.
Proof.
  induction tail as [|g tail IH]; intros i ET NO I; [destruct I|]. cbn [enum pack_filtered].
  assert (EG : nth_error keys i = Some g) by (rewrite <- (Nat.add_0_r i), <- nth_error_skipn, ET; reflexivity).
  destruct (Z.eqb_spec g 0) as [-> |NE]; [now rewrite (first_row keys i 0 EG NO)|].
  replace (Z.of_nat i + 1) with (Z.of_nat (S i)) by lia. apply IH.
  - change (S i) with (1 + i)%nat. rewrite Nat.add_comm, <- skipn_skipn', ET. reflexivity.
  - intros j B. destruct (Nat.eq_dec j i) as [-> |]; [congruence|]. apply NO. lia.
  - destruct I as [I|I]; [contradiction|exact I].
Qed.

Lemma inv_packed keys s0 f0 c0 u done p : inv keys s0 f0 c0 done p -> length s0 = length keys -> Z.of_nat (length f0) = u + 1 -> length c0 = length f0 -> 0 <= u ->
  NoDup done -> all_in_range (u + 1) keys -> (forall g, In g keys -> In g done) -> (forall g, 1 <= g <= u -> In g done) ->
  (~ In 0 done -> nth_error f0 0 = Some (-1) /\ nth_error c0 0 = Some 0) -> (In 0 done -> In 0 keys) ->
  packed_by u keys (p_sort p) (p_first p) (p_count p).
Proof.
  intros (I1 & I2 & I3 & I4 & I5 & I6) Ls LF LC HU N AR ALL POS ZERO ZIN.
  pose proof (packed_of_perm keys done N ALL) as PM.
  assert (LP : length (packed_of keys done) = length keys) by (rewrite (Permutation_length PM); unfold zseq; now rewrite map_length, seq_length).
  rewrite (writes_enum_prefix _ (packed_of keys done) _ (Permutation_refl _)) in I2 by lia. rewrite skipn_all2, app_nil_r in I2 by lia. injection I2 as I2.
  assert (CNT0 : ~ In 0 keys -> count_of keys 0 = 0).
  { intros NI. rewrite <- rows_with_length. destruct (rows_with keys 0) as [|x l] eqn:E; [reflexivity|]. exfalso. apply NI.
    assert (In x (rows_with keys 0)) as I by (rewrite E; now left). apply rows_with_in in I as (k & _ & Hk). eapply nth_error_In; eauto. }
  split; [|split; [|split; [lia|split]]].
  - split; [lia|]. intros g Hg. destruct (in_dec Z.eq_dec g done) as [I|NI].
    + apply in_split in I as (a & b & E). apply (I5 a g b E).
    + assert (g = 0) as -> by (destruct (Z.eq_dec g 0); auto; exfalso; apply NI, POS; lia). rewrite (proj2 (I6 0 ltac:(lia) NI)). rewrite CNT0 by (intros C; apply NI, ALL, C). apply (ZERO NI).
  - rewrite <- I2. exact PM.
  - intros g Hg IG. pose proof (ALL g IG) as ID. apply in_split in ID as (a & b & E). exists (Z.of_nat (length (packed_of keys a))). split; [apply (I5 a g b E)|]. split; [lia|].
    rewrite <- I2, E, packed_of_app. change (g :: b) with ([g] ++ b). rewrite packed_of_app, packed_of_one. unfold slice. rewrite Nat2Z.id, <- rows_with_length, Nat2Z.id.
    rewrite skipn_app, skipn_all, Nat.sub_diag. cbn [app skipn]. rewrite firstn_app, Nat.sub_diag, firstn_all. cbn [firstn]. apply app_nil_r.
  - intros NI. assert (ND : ~ In 0 done) by (intros C; apply NI, ZIN, C). pose proof (proj1 (I6 0 ltac:(lia) ND)) as X. change (Z.to_nat 0) with 0%nat in X. rewrite X. apply (ZERO ND).
Qed.
Lemma pack_next keys next u sjunk fjunk cjunk : 0 <= u -> keys <> [] -> first_order u keys -> linked keys next ->
  length sjunk = length keys -> Z.of_nat (length fjunk) = u + 1 -> length cjunk = length fjunk ->
  exists p, GroupByPack32_next keys next u sjunk fjunk cjunk = Some p /\ packed_by u keys (p_sort p) (p_first p) (p_count p).
Proof.
  intros HU NE FO LK Ls LF LC. unfold GroupByPack32_next, pack_start. destruct keys as [|k0 keys0] eqn:EK; [congruence|]. rewrite <- EK in *. clear NE.
  assert (LP : (0 < length keys)%nat) by (rewrite EK; cbn; lia). rewrite !zwr_some by lia. change (Z.to_nat 0) with 0%nat.
  set (s0 := upd sjunk 0 GB_INVALID_INDEX). set (f0 := upd fjunk 0 GB_INVALID_INDEX). set (c0 := upd cjunk 0 0).
  assert (E0 : nth_error keys 0 = Some k0) by (now rewrite EK). rewrite zrd_some by lia. change (Z.to_nat 0) with 0%nat. rewrite E0.
  assert (L0 : length s0 = length keys) by (unfold s0; now rewrite length_upd). assert (L1 : Z.of_nat (length f0) = u + 1) by (unfold f0; now rewrite length_upd).
  assert (L2 : length c0 = length f0) by (unfold c0, f0; rewrite !length_upd; exact LC).
  assert (F0 : nth_error f0 0 = Some (-1) /\ nth_error c0 0 = Some 0).
  { unfold f0, c0. rewrite !nth_error_upd. cbn [Nat.eqb]. rewrite !(proj2 (Nat.ltb_lt _ _)) by lia. split; reflexivity. }
  assert (IN0 : inv keys s0 f0 c0 [] (mkPacked s0 f0 c0 0)).
  { unfold inv. cbn [p_running p_sort p_first p_count]. split; [reflexivity|]. split; [reflexivity|]. split; [reflexivity|]. split; [reflexivity|]. split; [intros [|] ? ? C; discriminate C|]. intros; split; reflexivity. }
  set (m := Z.to_nat u). assert (HM : Z.of_nat m = u) by (unfold m; lia). rewrite <- HM in FO. assert (LM : length f0 = S m) by lia.
  assert (NU : NoDup (upto 1 m)) by (unfold upto; apply FinFun.Injective_map_NoDup; [intros x y; lia|apply seq_NoDup]).
  assert (IU : forall g, In g (upto 1 m) <-> 1 <= g <= u).
  { intros g. unfold upto. rewrite in_map_iff. split; [intros (x & <- & Hx); apply in_seq in Hx; lia|]. intros Hg. exists (Z.to_nat g). split; [lia|]. apply in_seq. lia. }
  assert (Z0 : ~ In 0 (upto 1 m)) by (rewrite IU; lia).
  assert (KR : forall g, In g keys -> g = 0 \/ In g (upto 1 m)) by (intros g I; pose proof (proj1 FO g I); rewrite IU; lia).
  destruct (Z.eqb_spec k0 0) as [Z|NZ].
  - subst k0. destruct (group_step keys next s0 f0 c0 [] (mkPacked s0 f0 c0 0) 0 0 LK L0 IN0 ltac:(repeat constructor; intros []) ltac:(constructor) ltac:(lia) L2) as (p1 & EP & IN1).
    { apply (first_row keys 0 0 E0). intros j B. lia. }
    rewrite EP. destruct (scan_step keys next s0 f0 c0 m [0] LK L0 FO LM L2 (or_intror eq_refl) keys 0%nat 1%nat p1 eq_refl ltac:(lia) ltac:(intros; lia) IN1) as (p2 & ES & IN2).
    change (Z.of_nat 0) with 0 in ES. change (Z.of_nat 1) with GB_BASE_INDEX in ES. unfold numbered. rewrite ES. exists p2. split; [reflexivity|].
    refine (inv_packed keys s0 f0 c0 u ([0] ++ upto 1 m) p2 IN2 L0 L1 L2 HU _ _ _ _ _ _).
    + cbn [app]. constructor; assumption.
    + rewrite <- HM. exact (proj1 FO).
    + intros g I. destruct (KR g I) as [-> |J]; [now left|now right].
    + intros g Hg. right. now apply IU.
    + intros C. elim C. now left.
    + intros _. eapply nth_error_In. exact E0.
  - destruct (scan_step keys next s0 f0 c0 m [] LK L0 FO LM L2 (or_introl eq_refl) keys 0%nat 1%nat _ eq_refl ltac:(lia) ltac:(intros; lia) IN0) as (p2 & ES & IN2).
    change (Z.of_nat 0) with 0 in ES. change (Z.of_nat 1) with GB_BASE_INDEX in ES. unfold numbered. rewrite ES. cbn [app] in IN2.
    destruct (in_dec Z.eq_dec 0 keys) as [I0|N0].
    + pose proof (filtered_found next p2 keys keys 0%nat eq_refl ltac:(intros; lia) I0) as EF. change (Z.of_nat 0) with 0 in EF. rewrite EF.
      assert (ND : NoDup (upto 1 m ++ [0])) by (apply NoDup_Add with (a := 0) (l := upto 1 m); [rewrite <- (app_nil_r (upto 1 m)) at 1; apply Add_app|split; assumption]).
      destruct (group_step keys next s0 f0 c0 (upto 1 m) p2 0 _ LK L0 IN2 ND ltac:(apply Forall_forall; intros x I; apply IU in I; lia) ltac:(lia) L2 eq_refl) as (p3 & EP & IN3).
      exists p3. split; [exact EP|]. refine (inv_packed keys s0 f0 c0 u _ p3 IN3 L0 L1 L2 HU ND _ _ _ _ _).
      * rewrite <- HM. exact (proj1 FO).
      * intros g I. apply in_or_app. destruct (KR g I) as [-> |J]; [right; now left|now left].
      * intros g Hg. apply in_or_app. left. now apply IU.
      * intros C. elim C. apply in_or_app. right. now left.
      * intros _. exact I0.
    + rewrite filtered_none.
      2: { intros i g I -> . apply N0. apply numbered_in in I as (j & _ & Ej). eapply nth_error_In. exact Ej. }
      exists p2. split; [reflexivity|]. refine (inv_packed keys s0 f0 c0 u _ p2 IN2 L0 L1 L2 HU NU _ _ _ _ _).
      * rewrite <- HM. exact (proj1 FO).
      * intros g I. destruct (KR g I) as [-> |J]; [contradiction|exact J].
      * intros g Hg. now apply IU.
      * intros _. exact F0.
      * intros C. contradiction.
Qed.

Lemma signed_key d bits : BgSpec.signed_type d bits -> key_type d = true.
Proof. now intros []. Qed.
Lemma key_signed d : key_type d = true -> exists bits, BgSpec.signed_type d bits.
Proof.
  unfold key_type. intros H. repeat (apply orb_true_iff in H as [H|H]); apply Z.eqb_eq in H; subst d; eexists; constructor.
Qed.
Lemma no_next_call junk n a u next : BgSpec.new_array junk -> 0 < n < 2 ^ 31 -> 0 <= u < 2 ^ 31 - 1 -> BgSpec.keys_given n a -> all_in_range (u + 1) (arg_vals 0 a) ->
  (forall b, next <> PArray b) ->
  exists sorted first count, GroupByPack32Call junk (PArray a) next u = Done (sorted, first, count) /\ histogram (u + 1) (arg_vals 0 a) count /\
    packed_rows (u + 1) (arg_vals 0 a) count sorted first /\ all_rows (arg_vals 0 a) sorted.
Proof.
  intros NJ HN HU ((bits & T) & OK & G) AR NX. unfold GroupByPack32Call. rewrite BgProofs.int64_right by lia. rewrite (signed_key _ _ T). cbn [negb].
  assert (E1 : match next with PArray b => a_len a =? a_len b | _ => true end = true) by (destruct next as [|b|]; auto; now elim (NX b)). rewrite E1. cbn [andb negb].
  pose proof (proj1 OK) as EL. rewrite EL. rewrite (proj2 (Z.ltb_ge u 0)), (proj2 (Z.leb_gt (2 ^ 31 - 1) u)), (proj2 (Z.leb_gt (2 ^ 31) n)) by lia. cbn [orb].
  rewrite (read_arg_right 0 n a) by (auto; lia). cbn [undef obind].
  assert (NE : arg_vals 0 a <> []) by (apply (BgProofs.vals_nonempty n); [lia|exact OK]).
  destruct (GroupProps.C40_group_by_pack_partial (arg_vals 0 a) u (junk (length (arg_vals 0 a))) (junk (Z.to_nat (u + 1))) (junk (Z.to_nat (u + 1))) (junk (length (arg_vals 0 a))) ltac:(lia) NE AR
    (NJ _) (NJ _) ltac:(rewrite (NJ _); lia) ltac:(rewrite (NJ _); lia)) as (p & E & H).
  exists (p_sort p), (p_first p), (p_count p). split; [|exact H]. destruct next as [|b|]; [|now elim (NX b)|]; rewrite E; reflexivity.
Qed.
Lemma next_given_call junk n a b u : BgSpec.new_array junk -> 0 < n < 2 ^ 31 -> 0 <= u < 2 ^ 31 - 1 -> BgSpec.keys_given n a -> arg_ok n b -> gapless b -> a_dtype b = 5 ->
  first_order u (arg_vals 0 a) -> linked (arg_vals 0 a) (arg_vals 0 b) ->
  exists sorted first count, GroupByPack32Call junk (PArray a) (PArray b) u = Done (sorted, first, count) /\ packed_by u (arg_vals 0 a) sorted first count.
Proof.
  intros NJ HN HU ((bits & T) & OK & G) OKB GB DB FO LK. unfold GroupByPack32Call. rewrite BgProofs.int64_right by lia. rewrite (signed_key _ _ T). cbn [negb].
  pose proof (proj1 OK) as EL. pose proof (proj1 OKB) as ELB. rewrite EL, ELB, Z.eqb_refl. cbn [andb negb].
  rewrite (proj2 (Z.ltb_ge u 0)), (proj2 (Z.leb_gt (2 ^ 31 - 1) u)), (proj2 (Z.leb_gt (2 ^ 31) n)) by lia. cbn [orb].
  rewrite (read_arg_right 0 n a), (read_arg_right 0 n b) by (auto; lia). rewrite DB. change (four_bytes 5) with true. cbn [undef obind].
  assert (NE : arg_vals 0 a <> []) by (apply (BgProofs.vals_nonempty n); [lia|exact OK]).
  destruct (pack_next (arg_vals 0 a) (arg_vals 0 b) u (junk (length (arg_vals 0 a))) (junk (Z.to_nat (u + 1))) (junk (Z.to_nat (u + 1))) ltac:(lia) NE FO LK
    (NJ _) ltac:(rewrite (NJ _); lia) eq_refl) as (p & E & H). rewrite E. cbn [undef obind]. exists (p_sort p), (p_first p), (p_count p). split; [reflexivity|exact H].
Qed.
Lemma pack_refused junk keys next u :
  (forall a, keys <> PArray a) \/ ~ (- 2 ^ 63 <= u < 2 ^ 63) \/ (exists a, keys = PArray a /\ forall bits, ~ BgSpec.signed_type (a_dtype a) bits) \/
  (exists a b, keys = PArray a /\ next = PArray b /\ a_len a <> a_len b) -> GroupByPack32Call junk keys next u = Error.
Proof.
  intros H. unfold GroupByPack32Call. destruct keys as [|a|]; try reflexivity.
  destruct (int64_ok u) eqn:E; cbn [negb]; [|reflexivity]. unfold int64_ok in E. apply andb_true_iff in E as [E1 E2]. apply Z.leb_le in E1. apply Z.ltb_lt in E2.
  destruct H as [H|[H|[(a' & H & L)|(a' & b & H & -> & L)]]].
  - now elim (H a).
  - exfalso. apply H. split; assumption.
  - injection H as <-. destruct (key_type (a_dtype a)) eqn:EK; [|now rewrite andb_false_r]. destruct (key_signed _ EK) as (bits & T). now elim (L bits).
  - injection H as <-. now rewrite (proj2 (Z.eqb_neq _ _) L).
Qed.
