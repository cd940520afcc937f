(** GroupFromLexSort. *)
From Verif Require Import Base Mem MemLemmas Num SortModel SortSpec SortProofs Sort2Proofs Sort4Proofs Sort5Proofs Sort6Proofs.
Local Open Scope Z_scope.

Section Group.
  Context {T : Type} (d : T) (differ lt : T -> T -> bool) (v : list T).
  Let val (i : Z) : T := nth (Z.to_nat i) v d.
  Context (Hdiff : forall x y, In x v -> In y v -> (differ x y = false <-> x = y))
    (Heq : forall x y, In x v -> In y v -> lt x y = false -> lt y x = false -> x = y).
  Context (zero : bool) (base : Z).
  Context (off : Z) (Hoff : off = if zero then 0 else 1).

  Definition grp_ok (blocks : list (list Z)) (cur : list Z) (key first cnt : list Z) : Prop :=
    (forall q b, nth_error (blocks ++ [cur]) q = Some b -> exists i r, b = i :: r /\ nth_error first q = Some i /\
      ((q < length blocks)%nat -> zrd cnt (Z.of_nat q + off) = Some (Z.of_nat (length b))) /\
      forall j, In j b -> val j = val i /\ zrd key j = Some (Z.of_nat q + base)) /\
    (forall q q' b b' i i', q <> q' -> nth_error (blocks ++ [cur]) q = Some b -> nth_error (blocks ++ [cur]) q' = Some b' -> In i b -> In i' b' -> val i <> val i').

  Lemma zrd_val i : 0 <= i < Z.of_nat (length v) -> zrd v i = Some (val i) /\ In (val i) v.
  Proof.
    intros H. subst val. rewrite zrd_some by lia. split; [apply nth_error_nth'; lia|]. apply nth_In. lia.
  Qed.
  Lemma zrd_upd_eq {A} (l : list A) i x : 0 <= i < Z.of_nat (length l) -> zrd (upd l (Z.to_nat i) x) i = Some x.
  Proof. clear. intros H. rewrite zrd_some by lia. apply nth_error_upd_eq. lia. Qed.
  Lemma zrd_upd_neq {A} (l : list A) i j x : 0 <= i -> i <> j -> zrd (upd l (Z.to_nat i) x) j = zrd l j.
  Proof. clear. intros H N. unfold zrd. destruct (Z.leb_spec 0 j); auto. apply nth_error_upd_neq. lia. Qed.

  Lemma group_loop_ok : forall rest blocks cur s,
    grp_ok blocks cur (g_key s) (g_first s) (g_count s) -> cur <> [] -> (forall j, In j cur -> val j = g_val s) ->
    g_cnt s = Z.of_nat (length cur) -> g_grp s = Z.of_nat (length blocks) ->
    (forall j, In j (concat blocks ++ cur ++ rest) -> 0 <= j < Z.of_nat (length v)) ->
    SS lt (map val (concat blocks ++ cur ++ rest)) ->
    length (g_key s) = length v -> (length blocks + 1 + length rest <= length (g_first s))%nat ->
    Z.of_nat (length blocks + 1 + length rest) + off <= Z.of_nat (length (g_count s)) ->
    exists blocks' cur' s', group_loop differ v zero base s rest = Some s' /\ concat blocks' ++ cur' = concat blocks ++ cur ++ rest /\
      grp_ok blocks' cur' (g_key s') (g_first s') (g_count s') /\ cur' <> [] /\
      g_cnt s' = Z.of_nat (length cur') /\ g_grp s' = Z.of_nat (length blocks') /\
      length (g_key s') = length (g_key s) /\ length (g_first s') = length (g_first s) /\ length (g_count s') = length (g_count s) /\
      (length blocks' <= length blocks + length rest)%nat /\
      (off = 1 -> zrd (g_count s') 0 = zrd (g_count s) 0) /\
      (forall j, ~ In j rest -> zrd (g_key s') j = zrd (g_key s) j).
  Proof.
    induction rest as [|k rest IH]; intros blocks cur s (G1 & G2) Nc Hv Hcnt Hgrp Hr Hs Lk Lf Lc.
    - exists blocks, cur, s. rewrite app_nil_r. split; auto. split; auto. split; [split; auto|]. repeat (split; auto; try lia).
    - assert (Hk : 0 <= k < Z.of_nat (length v)) by (apply Hr; rewrite !in_app_iff; simpl; auto).
      destruct (zrd_val k Hk) as [Ek Ik]. cbn [group_loop]. unfold group_step at 1. rewrite Ek.
      destruct cur as [|c cur']; [easy|]. set (cur := c :: cur') in *.
      assert (Hc : 0 <= c < Z.of_nat (length v)) by (apply Hr; rewrite !in_app_iff; unfold cur; simpl; auto).
      destruct (zrd_val c Hc) as [_ Ic]. pose proof (Hv c (or_introl eq_refl)) as Vc.
      pose proof (Hdiff (g_val s) (val k) ltac:(rewrite <- Vc; auto) Ik) as Dk.
      destruct (differ (g_val s) (val k)) eqn:D.
      + (* a new group *)
        assert (Nk : g_val s <> val k) by (intros X; apply Dk in X; discriminate).
        assert (Fresh : forall j, In j (concat blocks ++ cur) -> val j <> val k).
        { intros j Hj E. apply in_app_iff in Hj as [Hj|Hj]; [|apply Nk; rewrite <- (Hv j Hj); auto].
          assert (j' : 0 <= j < Z.of_nat (length v)) by (apply Hr; rewrite in_app_iff; auto).
          rewrite !map_app in Hs. apply SS_app in Hs as (_ & Hs2 & Hs3). simpl map in Hs2. apply SS_app in Hs2 as (_ & _ & Hs4).
          assert (lt (g_val s) (val j) = false). { apply Hs3; [now apply in_map|]. rewrite <- Vc. apply in_app_iff. left. now left. }
          assert (lt (val k) (g_val s) = false). { apply Hs4; [rewrite <- Vc; now left|now left]. }
          apply Nk. apply Heq; try congruence; auto; rewrite <- ?Vc; auto. }
        rewrite Hgrp.
        assert (W1 : zwr (g_count s) (if zero then Z.of_nat (length blocks) else Z.of_nat (length blocks) + 1) (g_cnt s) =
          Some (upd (g_count s) (Z.to_nat (Z.of_nat (length blocks) + off)) (g_cnt s))).
        { rewrite zwr_some; [do 2 f_equal; destruct zero; lia|]. destruct zero; lia. }
        rewrite W1. rewrite (zwr_some (g_first s)) by (simpl in Lf; lia). rewrite (zwr_some (g_key s)) by lia.
        replace (Z.to_nat (Z.of_nat (length blocks) + 1)) with (length blocks + 1)%nat by lia.
        set (s1 := GS (val k) 1 (Z.of_nat (length blocks) + 1) (upd (g_key s) (Z.to_nat k) (Z.of_nat (length blocks) + 1 + base))
          (upd (g_first s) (length blocks + 1) k) (upd (g_count s) (Z.to_nat (Z.of_nat (length blocks) + off)) (g_cnt s))).
        destruct (IH (blocks ++ [cur]) [k] s1) as (bl & cu & s' & E1 & E2 & E3 & E4 & E5 & E6 & E7 & E8 & E9 & E10 & E11 & E12); auto.
        * split.
          -- intros q b Hq. destruct (Nat.eq_dec q (length blocks + 1)) as [-> |Nq].
             ++ rewrite nth_error_app2 in Hq by (rewrite app_length; simpl; lia). rewrite app_length in Hq. simpl in Hq. rewrite Nat.sub_diag in Hq. injection Hq as <-.
                exists k, []. split; auto. split; [cbn [s1 g_first]; apply nth_error_upd_eq; simpl in Lf; lia|]. split; [rewrite app_length; simpl; lia|].
                intros j [<-|[]]. split; auto. cbn [s1 g_key]. rewrite zrd_upd_eq by lia. f_equal. lia.
             ++ assert (Lq : (q < length (blocks ++ [cur]))%nat). { apply nth_error_Some_lt in Hq. rewrite !app_length in *. simpl in *. lia. }
                rewrite nth_error_app1 in Hq by auto. destruct (G1 q b Hq) as (i & r & -> & F1 & C1 & K1). exists i, r. split; auto.
                split; [cbn [s1 g_first]; rewrite nth_error_upd_neq; auto|]. split.
                ** intros _. cbn [s1 g_count]. rewrite app_length in Lq. simpl in Lq. destruct (Nat.eq_dec q (length blocks)) as [-> |].
                   --- rewrite zrd_upd_eq by (destruct zero; lia). rewrite Hcnt. f_equal. f_equal.
                       rewrite nth_error_app2, Nat.sub_diag in Hq by lia. injection Hq as -> ->. auto.
                   --- rewrite zrd_upd_neq by (destruct zero; lia). apply C1. lia.
                ** intros j Hj. destruct (K1 j Hj) as [K2 K3]. split; auto. cbn [s1 g_key]. rewrite zrd_upd_neq; auto; [lia|]. intros <-.
                   apply (Fresh k); auto. apply nth_error_In in Hq. apply in_app_iff. apply in_app_iff in Hq as [Hq|[Hq|[]]].
                   --- left. apply in_concat. eauto.
                   --- right. unfold cur in *. rewrite Hq. auto.
          -- intros q q' b b' i i' Nq Hq Hq' Hi Hi'.
             assert (X : forall q b i, nth_error ((blocks ++ [cur]) ++ [[k]]) q = Some b -> In i b -> (q = length (blocks ++ [cur]) /\ i = k) \/ (nth_error (blocks ++ [cur]) q = Some b /\ In i (concat blocks ++ cur))).
             { clear. intros q b i Hq Hi. destruct (Nat.ltb_spec q (length (blocks ++ [cur]))) as [L|L].
               - right. rewrite nth_error_app1 in Hq by auto. split; auto. apply nth_error_In in Hq. apply in_app_iff. apply in_app_iff in Hq as [Hq|[<-|[]]]; auto.
                 left. apply in_concat. eauto.
               - left. rewrite nth_error_app2 in Hq by auto. destruct (q - length (blocks ++ [cur]))%nat eqn:E; [|now destruct n].
                 injection Hq as <-. destruct Hi as [<-|[]]. split; auto. lia. }
             destruct (X _ _ _ Hq Hi) as [[-> ->]|[Y1 Y2]], (X _ _ _ Hq' Hi') as [[-> ->]|[Z1 Z2]]; try congruence.
             ++ apply not_eq_sym. apply Fresh; auto.
             ++ apply Fresh; auto.
             ++ eapply (G2 q q'); eauto.
        * discriminate.
        * intros j [<-|[]]. auto.
        * cbn [s1 g_grp]. rewrite app_length. simpl. lia.
        * intros j Hj. apply Hr. rewrite concat_app in Hj. simpl in Hj. rewrite app_nil_r, <- app_assoc in Hj. auto.
        * rewrite concat_app. simpl concat. rewrite app_nil_r, <- app_assoc. auto.
        * cbn [s1 g_key]. now rewrite length_upd.
        * cbn [s1 g_first]. rewrite length_upd, app_length. simpl in *. lia.
        * cbn [s1 g_count]. rewrite length_upd, app_length. simpl length in *. lia.
        * exists bl, cu, s'. split; auto. split. { rewrite E2, concat_app. simpl concat. rewrite app_nil_r, <- app_assoc. auto. }
          split; auto. split; auto. split; auto. split; auto. cbn [s1 g_key g_first g_count] in *. rewrite !length_upd in *.
          split; auto. split; auto. split; auto. split; [rewrite app_length in E10; simpl in *; lia|]. split.
          -- intros O1. rewrite E11 by auto. apply zrd_upd_neq; lia.
          -- intros j Hj. simpl in Hj. rewrite E12 by tauto. apply zrd_upd_neq; [lia|]. intros ->. tauto.
      + (* the same group *)
        assert (Vk : val k = g_val s) by (symmetry; now apply Dk).
        rewrite Hgrp. rewrite (zwr_some (g_key s)) by lia.
        set (s1 := GS (g_val s) (g_cnt s + 1) (Z.of_nat (length blocks)) (upd (g_key s) (Z.to_nat k) (Z.of_nat (length blocks) + base)) (g_first s) (g_count s)).
        destruct (IH blocks (cur ++ [k]) s1) as (bl & cu & s' & E1 & E2 & E3 & E4 & E5 & E6 & E7 & E8 & E9 & E10 & E11 & E12); auto.
        * assert (Hcur : nth_error (blocks ++ [cur]) (length blocks) = Some cur) by (rewrite nth_error_app2, Nat.sub_diag by lia; auto).
          assert (X : forall q b, nth_error (blocks ++ [cur ++ [k]]) q = Some b -> (q = length blocks /\ b = cur ++ [k]) \/ ((q < length blocks)%nat /\ nth_error (blocks ++ [cur]) q = Some b)).
          { clear. intros q b Hq. destruct (Nat.ltb_spec q (length blocks)) as [L|L].
            - right. rewrite nth_error_app1 in * by auto. auto.
            - left. rewrite nth_error_app2 in Hq by auto. destruct (q - length blocks)%nat eqn:E; [|now destruct n]. injection Hq as <-. split; auto. lia. }
          split.
          -- intros q b Hq. destruct (X q b Hq) as [[-> ->]|[Lq Hq']].
             ++ destruct (G1 _ _ Hcur) as (i & r & E & F1 & C1 & K1). injection E as <- <-. exists c, (cur' ++ [k]). split; auto. split; auto.
                split; [lia|]. intros j Hj. cbn [s1 g_key]. apply in_app_iff in Hj as [Hj|[<-|[]]].
                ** split; [now apply K1|]. destruct (Z.eq_dec k j) as [-> |N]; [apply zrd_upd_eq; lia|]. rewrite zrd_upd_neq by (auto; lia). now apply K1.
                ** split; [congruence|]. apply zrd_upd_eq; lia.
             ++ destruct (G1 _ _ Hq') as (i & r & -> & F1 & C1 & K1). exists i, r. split; auto. split; auto. split; auto. intros j Hj. split; [now apply K1|].
                cbn [s1 g_key]. rewrite zrd_upd_neq; [now apply K1|lia|]. intros <-.
                apply (G2 q (length blocks) (i :: r) cur k c); auto; [lia|now left|congruence].
          -- intros q q' b b' i i' Nq Hq Hq' Hi Hi'.
             assert (Y : forall q b i, nth_error (blocks ++ [cur ++ [k]]) q = Some b -> In i b -> exists b0 i0, nth_error (blocks ++ [cur]) q = Some b0 /\ In i0 b0 /\ val i = val i0).
             { intros q0 b0 i0 A B. destruct (X q0 b0 A) as [[-> ->]|[Lq C]]; [|eauto]. apply in_app_iff in B as [B|[<-|[]]]; [exists cur, i0; auto|].
               exists cur, c. split; auto. split; [now left|congruence]. }
             destruct (Y _ _ _ Hq Hi) as (b1 & i1 & A1 & A2 & ->), (Y _ _ _ Hq' Hi') as (b2 & i2 & B1 & B2 & ->). eapply (G2 q q'); eauto.
        * destruct cur; discriminate.
        * intros j Hj. apply in_app_iff in Hj as [Hj|[<-|[]]]; auto.
        * cbn [s1 g_cnt]. rewrite app_length. cbn [length] in *. unfold cur in *. cbn [length] in *. lia.
        * intros j Hj. apply Hr. rewrite <- app_assoc in Hj. auto.
        * rewrite <- app_assoc. auto.
        * cbn [s1 g_key]. now rewrite length_upd.
        * cbn [s1 g_first]. simpl in *. lia.
        * cbn [s1 g_count]. simpl length in *. lia.
        * exists bl, cu, s'. split; auto. split. { rewrite E2, <- app_assoc. auto. }
          split; auto. split; auto. split; auto. split; auto. cbn [s1 g_key g_first g_count] in *. rewrite !length_upd in *.
          split; auto. split; auto. split; auto. split; [simpl; lia|]. split; auto.
          intros j Hj. simpl in Hj. rewrite E12 by tauto. apply zrd_upd_neq; [lia|]. intros ->. tauto.
  Qed.

  Lemma GroupIndex_ok shift index key first cnt : zero = negb shift && (base =? 0) ->
    (forall j, In j index -> 0 <= j < Z.of_nat (length v)) -> sorted lt (map val index) ->
    length key = length v -> (length index <= length first)%nat -> Z.of_nat (length index) + off <= Z.of_nat (length cnt) ->
    exists u key' first' cnt', GroupIndex differ v shift base index key first cnt = Some (u, (key', first', cnt')) /\
      0 <= u <= Z.of_nat (length index) /\ length key' = length key /\ length first' = length first /\ length cnt' = length cnt /\
      grouping val base off index key' (firstn (Z.to_nat u) first') (firstn (Z.to_nat (u + off)) cnt') /\
      (off = 1 -> index <> [] -> zrd cnt' 0 = Some 0) /\
      (forall j, ~ In j index -> zrd key' j = zrd key j).
  Proof.
    intros Hz Hr Hs Lk Lf Lc. unfold GroupIndex. rewrite <- Hz. destruct index as [|i rest].
    - exists 0, key, first, cnt. split; auto. split; [lia|]. split; auto. split; auto. split; auto. split.
      + exists []. split; auto. split; auto. split; [intros [|q] b; discriminate|intros [|q] q' b b' i i' _; discriminate].
      + split; auto. intros _ []; auto.
    - destruct (zrd_val i) as [Ei Ii]; [apply Hr; now left|]. rewrite Ei. pose proof (Hr i (or_introl eq_refl)) as Ri.
      set (cnt0 := if zero then cnt else upd cnt 0 0).
      assert (W0 : (if zero then Some cnt else zwr cnt 0 0) = Some cnt0). { subst cnt0. destruct zero; auto. rewrite zwr_some; auto. simpl length in Lc. lia. }
      assert (L0 : length cnt0 = length cnt) by (subst cnt0; destruct zero; rewrite ?length_upd; auto).
      rewrite W0, (zwr_some first), (zwr_some key) by (simpl in Lf; lia). cbn [Z.to_nat].
      set (s0 := GS (val i) 1 0 (upd key (Z.to_nat i) base) (upd first 0 i) cnt0).
      destruct (group_loop_ok rest [] [i] s0) as (bl & cu & s' & E1 & E2 & [G1 G2] & E4 & E5 & E6 & E7 & E8 & E9 & E10 & E11 & E12); auto.
      + split.
        * intros [|q] b Hq; [|now destruct q]. injection Hq as <-. exists i, []. split; auto. split; [cbn [s0 g_first]; apply nth_error_upd_eq; simpl in Lf; lia|].
          split; [simpl; lia|]. intros j [<-|[]]. split; auto. cbn [s0 g_key]. rewrite zrd_upd_eq by lia. f_equal.
        * intros [|q] [|q'] b b' j j' N Hq Hq'; try congruence; try (now destruct q'); now destruct q.
      + discriminate.
      + intros j [<-|[]]; auto.
      + apply SS_sorted. auto.
      + cbn [s0 g_key]. now rewrite length_upd.
      + cbn [s0 g_first]. rewrite length_upd. simpl in *. lia.
      + cbn [s0 g_count]. simpl length in *. lia.
      + rewrite E1, E6. cbn [s0 g_key g_first g_count] in *. rewrite !length_upd in *.
        assert (Wc : zwr (g_count s') (if zero then Z.of_nat (length bl) else Z.of_nat (length bl) + 1) (g_cnt s') =
          Some (upd (g_count s') (Z.to_nat (Z.of_nat (length bl) + off)) (g_cnt s'))).
        { simpl length in *. rewrite zwr_some; [do 2 f_equal; destruct zero; lia|]. destruct zero; lia. }
        rewrite Wc. eexists _, _, _, _. split; [reflexivity|]. simpl length in *. rewrite !length_upd. split; [lia|]. split; [lia|]. split; [lia|]. split; [lia|]. split.
        * exists (bl ++ [cu]). split. { rewrite concat_app. simpl concat. rewrite app_nil_r, E2. auto. }
          split. { rewrite firstn_length, app_length. simpl. lia. }
          split; auto. intros q b Hq. destruct (G1 q b Hq) as (j & r & -> & F1 & C1 & K1). exists j, r. split; auto.
          pose proof (nth_error_Some_lt _ _ _ Hq) as Lq. rewrite app_length in Lq. simpl in Lq.
          split. { rewrite nth_error_firstn. destruct (Nat.ltb_spec q (Z.to_nat (Z.of_nat (length bl) + 1))); [auto|lia]. }
          split; auto. rewrite zrd_some by (destruct zero; lia). rewrite nth_error_firstn.
          destruct (Nat.ltb_spec (Z.to_nat (Z.of_nat q + off)) (Z.to_nat (Z.of_nat (length bl) + 1 + off))); [|destruct zero; lia].
          rewrite <- zrd_some by (destruct zero; lia). destruct (Nat.eq_dec q (length bl)) as [-> |].
          -- rewrite zrd_upd_eq by (destruct zero; lia). rewrite E5. f_equal. f_equal. rewrite nth_error_app2, Nat.sub_diag in Hq by lia. injection Hq as Hq. now rewrite Hq.
          -- rewrite zrd_upd_neq by (destruct zero; lia). apply C1. lia.
        * split.
          -- intros O _. rewrite zrd_upd_neq by lia. rewrite E11 by auto. subst cnt0. destruct zero; [lia|]. rewrite zrd_some by lia. apply nth_error_upd_eq. lia.
          -- intros j Hj. simpl in Hj. rewrite E12 by tauto. apply zrd_upd_neq; [lia|]. intros ->. tauto.
  Qed.
End Group.

Lemma grouping_keys {K} (val : Z -> K) base off index key first cnt : grouping val base off index key first cnt ->
  forall i j, In i index -> In j index -> (zrd key i = zrd key j <-> val i = val j).
Proof.
  intros (bl & -> & _ & B & N) i j Hi Hj. apply in_concat in Hi as (bi & Hbi & Hi), Hj as (bj & Hbj & Hj).
  apply In_nth_error in Hbi as (qi & Qi), Hbj as (qj & Qj).
  destruct (B _ _ Qi) as (x & r & _ & _ & _ & Ki), (B _ _ Qj) as (y & r' & _ & _ & _ & Kj). destruct (Ki i Hi) as [Vi ->], (Kj j Hj) as [Vj ->].
  split.
  - intros [= E]. assert (qi = qj) by lia. subst qj. rewrite Qi in Qj. injection Qj as <-. rewrite Vi. symmetry. now apply Ki.
  - intros E. f_equal. f_equal. f_equal. destruct (Nat.eq_dec qi qj) as [|X]; auto. exfalso. eapply (N qi qj); eauto.
Qed.

Lemma cutoffs_le start n cutoffs : cutoffs_ok start n cutoffs -> start <= n.
Proof. revert start. induction cutoffs as [|c r IH]; cbn; intros start H; [lia|]. destruct H as [H1 H2]. apply IH in H2. lia. Qed.
Lemma partition_below start n cutoffs j : cutoffs_ok start n cutoffs -> j < start -> partition_of cutoffs j = O.
Proof.
  unfold partition_of. revert start. induction cutoffs as [|c r IH]; intros start H Hj; auto. destruct H as [H1 H2]. cbn [countb].
  destruct (Z.leb_spec c j); [lia|]. rewrite (IH c H2) by lia. auto.
Qed.
Lemma partition_next c r j : partition_of (c :: r) j = ((if (c <=? j)%Z then 1 else 0) + partition_of r j)%nat.
Proof. unfold partition_of. cbn [countb]. destruct (c <=? j); auto. Qed.

Section Cutoffs.
  Context {T : Type} (d : T) (differ lt : T -> T -> bool) (v : list T).
  Let val (i : Z) : T := nth (Z.to_nat i) v d.
  Context (Hdiff : forall x y, In x v -> In y v -> (differ x y = false <-> x = y))
    (Heq : forall x y, In x v -> In y v -> lt x y = false -> lt y x = false -> x = y).
  Context (index : list Z) (junk : Z) (Lv : length index = length v).
  Let n := Z.of_nat (length v).

  Lemma countb_all {X} (f : X -> bool) l : (forall x, In x l -> f x = true) -> countb f l = length l.
  Proof. induction l as [|x l IHl]; intros H; [reflexivity|]. cbn [countb length]. rewrite (H x (or_introl eq_refl)), IHl by (intros; apply H; now right). reflexivity. Qed.

  Lemma group_parts_ok : forall cutoffs start before, 0 <= start -> cutoffs_ok start n cutoffs ->
    (forall p, In p (parts start cutoffs) -> forall j, In j (rows index (fst p) (snd p)) -> 0 <= j < snd p) ->
    (forall p, In p (parts start cutoffs) -> sorted lt (map (fun j => val (fst p + j)) (rows index (fst p) (snd p)))) ->
    exists ks idxs fs cs us blocks, group_parts differ false v index junk (parts start cutoffs) before = Some (ks, idxs, fs, cs, us) /\
      Z.of_nat (length ks) = n - start /\ Z.of_nat (length idxs) = n - start /\ idxs = concat blocks /\ length fs = length blocks /\ length cs = length blocks /\
      length us = length cutoffs /\
      (forall q b, nth_error blocks q = Some b -> exists i r, b = i :: r /\ nth_error fs q = Some i /\ nth_error cs q = Some (Z.of_nat (length b)) /\
        forall j, In j b -> start <= j < n /\ (partition_of cutoffs j, val j) = (partition_of cutoffs i, val i) /\ zrd ks (j - start) = Some (Z.of_nat q + (before + 1))) /\
      (forall q q' b b' i i', q <> q' -> nth_error blocks q = Some b -> nth_error blocks q' = Some b' -> In i b -> In i' b' ->
        (partition_of cutoffs i, val i) <> (partition_of cutoffs i', val i')) /\
      idxs = concat (map (fun p => map (fun i => i + fst p) (rows index (fst p) (snd p))) (parts start cutoffs)) /\
      (forall k u, nth_error us k = Some u -> u = before + Z.of_nat (countb (fun i => (partition_of cutoffs i <=? k)%nat) fs)).
  Proof.
    induction cutoffs as [|c cutoffs IH]; intros start before H0 Hk Hr Hs.
    - exists [], [], [], [], [], []. cbn in Hk. cbn [group_parts parts]. split; auto. split; [simpl; lia|]. split; [simpl; lia|].
      split; auto. split; auto. split; auto. split; auto. split; [intros [|q] b; discriminate|]. split; [intros [|q] q' b b' i i' _; discriminate|]. split; [auto|]. intros [|k] u; discriminate.
    - destruct Hk as [Hc Hk]. pose proof (cutoffs_le _ _ _ Hk) as Hn. cbn [parts group_parts]. unfold group_part.
      cbn [fst snd] in *. set (l := c - start) in *.
      assert (Lr : forall A (a : list A), length a = length v -> length (firstn (Z.to_nat l) (skipn (Z.to_nat start) a)) = Z.to_nat l).
      { intros A a La. rewrite firstn_length, skipn_length. subst n. lia. }
      specialize (Hr (start, l) (or_introl eq_refl)) as Hr0. specialize (Hs (start, l) (or_introl eq_refl)) as Hs0. cbn [fst snd] in Hr0, Hs0.
      set (v' := firstn (Z.to_nat l) (skipn (Z.to_nat start) v)). set (idx := firstn (Z.to_nat l) (skipn (Z.to_nat start) index)).
      change (rows index start l) with idx in Hr0, Hs0.
      assert (Lv' : length v' = Z.to_nat l) by (apply Lr; auto). assert (Li : length idx = Z.to_nat l) by (apply Lr; auto).
      assert (Sub : forall x, In x v' -> In x v).
      { intros x Hx. apply (seg_In v start (start + l)). unfold seg. now replace (start + l - start) with l by lia. }
      assert (Vv : forall j, 0 <= j < l -> nth (Z.to_nat j) v' d = val (start + j)).
      { intros j Hj. unfold val. apply nth_error_nth. unfold v'. rewrite nth_error_firstn, nth_error_skipn.
        destruct (Nat.ltb_spec (Z.to_nat j) (Z.to_nat l)); [|lia]. rewrite (nth_error_nth' v d) by (subst n; lia). f_equal. f_equal. lia. }
      destruct (GroupIndex_ok d differ lt v' ltac:(auto) ltac:(auto) true 0 0 eq_refl false idx (repeat junk (Z.to_nat l)) (repeat junk (Z.to_nat l)) (repeat junk (Z.to_nat l)))
        as (u & key & fi & cn & E1 & Hu & Lk & Lf & Lc & G & _ & _); auto; rewrite ?repeat_length in *; try lia.
      { rewrite (map_ext_in _ (fun j => val (start + j))); auto. }
      rewrite E1.
      destruct (IH c (before + u)) as (ks & idxs & fs & cs & us & bl & E2 & L1 & L2 & C2 & L3 & L4 & L5 & B2 & N2 & X2 & U2); auto; [lia|intros p Hp; apply Hr; now right|intros p Hp; apply Hs; now right|].
      rewrite E2. destruct G as (bk & Ci & Lb & B1 & N1). rewrite firstn_length in Lb.
      assert (Hin : forall q b j, nth_error bk q = Some b -> In j b -> 0 <= j < l).
      { intros q b j Hq Hj. apply Hr0. rewrite Ci. apply in_concat. exists b. split; auto. eapply nth_error_In; eauto. }
      assert (Ps : forall j, 0 <= j < l -> partition_of (c :: cutoffs) (start + j) = O).
      { intros j Hj. rewrite partition_next, (partition_below c n) by (auto; lia). destruct (Z.leb_spec c (start + j)); lia. }
      assert (Split : forall q b, nth_error (map (map (fun i => i + start)) bk ++ bl) q = Some b ->
        (exists b0, nth_error bk q = Some b0 /\ b = map (fun i => i + start) b0 /\ (q < length bk)%nat) \/ (nth_error bl (q - length bk) = Some b /\ (length bk <= q)%nat)).
      { clear. intros q b Hq. destruct (Nat.ltb_spec q (length bk)) as [L|L].
        - left. rewrite nth_error_app1, nth_error_map in Hq by (rewrite map_length; auto). destruct (nth_error bk q) as [b0|]; [|discriminate]. injection Hq as <-. eauto.
        - right. rewrite nth_error_app2, map_length in Hq by (rewrite map_length; auto). auto. }
      eexists _, _, _, _, _, (map (map (fun i => i + start)) bk ++ bl). split; [reflexivity|].
      split; [rewrite app_length, map_length; lia|]. split; [rewrite app_length, map_length; lia|].
      split; [rewrite concat_app, <- C2, <- concat_map, <- Ci; auto|].
      split; [rewrite !app_length, !map_length, firstn_length; lia|]. split; [rewrite !app_length, !map_length, firstn_length; lia|].
      split; [simpl; lia|]. split; [|split; [|split]].
      + intros q b Hq. destruct (Split q b Hq) as [(b0 & Q0 & -> & Lq)|[Q0 Lq]].
        * destruct (B1 q b0 Q0) as (i & r & -> & F1 & C1 & K1). exists (i + start), (map (fun i => i + start) r). split; auto.
          split. { rewrite nth_error_app1, nth_error_map, F1 by (rewrite map_length, firstn_length; lia). auto. }
          split. { rewrite !Z.add_0_r, zrd_some, Nat2Z.id in C1 by lia. rewrite nth_error_app1, C1 by (rewrite firstn_length; lia). rewrite map_length. auto. }
          intros j Hj. apply in_map_iff in Hj as (j0 & <- & Hj). pose proof (Hin _ _ _ Q0 Hj) as R0. pose proof (Hin _ _ i Q0 (or_introl eq_refl)) as Ri. destruct (K1 j0 Hj) as [K2 K3].
          split; [lia|]. split. { rewrite !(Z.add_comm _ start), !Ps by auto. f_equal. rewrite <- !Vv by auto. auto. }
          replace (j0 + start - start) with j0 by lia. rewrite zrd_some by lia. rewrite nth_error_app1, nth_error_map by (rewrite map_length; lia).
          rewrite zrd_some in K3 by lia. rewrite K3. cbn [option_map]. f_equal. lia.
        * destruct (B2 _ b Q0) as (i & r & -> & F1 & C1 & K1). exists i, r. split; auto.
          split. { rewrite nth_error_app2 by (rewrite map_length, firstn_length; lia). rewrite map_length, firstn_length. rewrite <- F1. f_equal. lia. }
          split. { rewrite nth_error_app2 by (rewrite firstn_length; lia). rewrite firstn_length. rewrite <- C1. f_equal. lia. }
          intros j Hj. destruct (K1 j Hj) as (R1 & P1 & K2). destruct (K1 i (or_introl eq_refl)) as (Ri & _ & _). split; [lia|]. split.
          { rewrite !partition_next. destruct (Z.leb_spec c j), (Z.leb_spec c i); try lia. injection P1 as -> ->. auto. }
          rewrite zrd_some in * by lia. rewrite nth_error_app2 by (rewrite map_length; lia). rewrite map_length.
          replace (Z.to_nat (j - start) - length key)%nat with (Z.to_nat (j - c)) by lia. rewrite K2. f_equal. lia.
      + intros q q' b b' i i' Nq Hq Hq' Hi Hi'.
        assert (In2 : forall q b i, nth_error bl q = Some b -> In i b -> c <= i).
        { intros q0 b0 i0 A B. destruct (B2 _ _ A) as (? & ? & _ & _ & _ & K). apply K in B. lia. }
        destruct (Split q b Hq) as [(b0 & Q0 & -> & Lq)|[Q0 Lq]], (Split q' b' Hq') as [(b1 & Q1 & -> & Lq')|[Q1 Lq']].
        * apply in_map_iff in Hi as (j & <- & Hj), Hi' as (j' & <- & Hj'). pose proof (Hin _ _ _ Q0 Hj). pose proof (Hin _ _ _ Q1 Hj').
          intros E. pose proof (f_equal snd E) as E'. cbn [snd] in E'. rewrite !(Z.add_comm _ start), <- !Vv in E' by auto. revert E'. eapply (N1 q q'); eauto.
        * apply in_map_iff in Hi as (j & <- & Hj). pose proof (Hin _ _ _ Q0 Hj). pose proof (In2 _ _ _ Q1 Hi').
          intros E. pose proof (f_equal fst E) as E'. cbn [fst] in E'. rewrite (Z.add_comm _ start), Ps in E' by auto. rewrite partition_next in E'. destruct (Z.leb_spec c i'); lia.
        * apply in_map_iff in Hi' as (j & <- & Hj). pose proof (Hin _ _ _ Q1 Hj). pose proof (In2 _ _ _ Q0 Hi).
          intros E. pose proof (f_equal fst E) as E'. cbn [fst] in E'. rewrite (Z.add_comm _ start), Ps in E' by auto. rewrite partition_next in E'. destruct (Z.leb_spec c i); lia.
        * pose proof (In2 _ _ _ Q0 Hi). pose proof (In2 _ _ _ Q1 Hi'). intros E. apply (N2 (q - length bk)%nat (q' - length bk)%nat b b' i i'); auto; [lia|].
          rewrite !partition_next in E. destruct (Z.leb_spec c i), (Z.leb_spec c i'); try lia. injection E as E1' E2'. congruence.
      + cbn [map concat fst snd]. rewrite X2. reflexivity.
      + assert (A1 : forall k, countb (fun i => (partition_of (c :: cutoffs) i <=? k)%nat) (map (fun i => i + start) (firstn (Z.to_nat u) fi)) = Z.to_nat u).
        { intros k. replace (Z.to_nat u) with (length (map (fun i => i + start) (firstn (Z.to_nat u) fi))) at 2 by (rewrite map_length, firstn_length; lia).
          apply countb_all. intros x Hx. apply in_map_iff in Hx as (i & <- & Hi). apply In_nth_error in Hi as (q & Hq).
          assert (Lq : (q < length bk)%nat) by (rewrite <- Lb, <- firstn_length; apply nth_error_Some; congruence).
          destruct (nth_error bk q) as [b|] eqn:Eb; [|apply nth_error_None in Eb; lia]. destruct (B1 q b Eb) as (i' & r & Er & F1 & _). rewrite Hq in F1. injection F1 as <-.
          rewrite Z.add_comm, Ps; [reflexivity|]. apply (Hin q b i Eb). rewrite Er. now left. }
        assert (A2 : forall x, In x fs -> c <= x).
        { intros x Hx. apply In_nth_error in Hx as (q & Hq). assert (Lq : (q < length bl)%nat) by (rewrite <- L3; apply nth_error_Some; congruence).
          destruct (nth_error bl q) as [b|] eqn:Eb; [|apply nth_error_None in Eb; lia]. destruct (B2 q b Eb) as (i' & r & Er & F1 & _ & K1). rewrite Hq in F1. injection F1 as <-.
          assert (Ix : In x b) by (rewrite Er; now left). apply K1 in Ix. lia. }
        intros [|k] w Hw; cbn [nth_error] in Hw.
        * injection Hw as <-. rewrite countb_app, A1. rewrite (proj2 (countb_zero _ fs)); [lia|]. intros i x Hx. apply nth_error_In in Hx. apply A2 in Hx.
          rewrite partition_next. destruct (Z.leb_spec c x); [reflexivity|lia].
        * rewrite (U2 _ _ Hw), countb_app, A1. rewrite (countb_ext (fun i => (partition_of (c :: cutoffs) i <=? S k)%nat) (fun i => (partition_of cutoffs i <=? k)%nat) fs); [lia|].
          intros x Hx. apply A2 in Hx. rewrite partition_next. destruct (Z.leb_spec c x); [reflexivity|lia].
  Qed.

  Lemma GroupFromLexSort_cutoffs_ok cutoffs : cutoffs_ok 0 n cutoffs ->
    (forall p, In p (parts 0 cutoffs) -> forall j, In j (rows index (fst p) (snd p)) -> 0 <= j < snd p) ->
    (forall p, In p (parts 0 cutoffs) -> sorted lt (map (fun j => val (fst p + j)) (rows index (fst p) (snd p)))) ->
    exists keys idx first cnt us, GroupFromLexSort_cutoffs differ false v index junk cutoffs = Some (keys, idx, first, cnt, us) /\
      length keys = length v /\ length us = length cutoffs /\ length cnt = S (length first) /\ nth_error cnt 0 = Some 0 /\
      idx = concat (map (fun p => map (fun i => i + fst p) (rows index (fst p) (snd p))) (parts 0 cutoffs)) /\
      grouping (fun i => (partition_of cutoffs i, val i)) 1 1 idx keys first cnt /\
      (forall k u, nth_error us k = Some u -> u = Z.of_nat (countb (fun i => (partition_of cutoffs i <=? k)%nat) first)).
  Proof.
    intros Hk Hr Hs. destruct (group_parts_ok cutoffs 0 0 ltac:(lia) Hk Hr Hs) as (ks & idxs & fs & cs & us & bl & E2 & L1 & L2 & C2 & L3 & L4 & L5 & B2 & N2 & X2 & U2).
    unfold GroupFromLexSort_cutoffs. rewrite E2. eexists _, _, _, _, _. split; [reflexivity|]. split; [subst n; lia|]. split; auto. split; [simpl; lia|]. split; auto. split; auto. split; [|exact U2].
    exists bl. split; auto. split; auto. split; auto. intros q b Hq. destruct (B2 q b Hq) as (i & r & -> & F1 & C1 & K1). exists i, r. split; auto. split; auto.
    split. { rewrite zrd_some by lia. replace (Z.to_nat (Z.of_nat q + 1)) with (S q) by lia. exact C1. }
    intros j Hj. destruct (K1 j Hj) as (_ & K2 & K3). split; auto. rewrite Z.sub_0_r in K3. rewrite K3. f_equal.
  Qed.
End Cutoffs.

Lemma GroupFromLexSort_ok {T} (d : T) differ lt (v : list T) shift base index junk :
  (forall x y, In x v -> In y v -> (differ x y = false <-> x = y)) -> (forall x y, In x v -> In y v -> lt x y = false -> lt y x = false -> x = y) ->
  (forall j, In j index -> 0 <= j < Z.of_nat (length v)) -> sorted lt (map (fun i => nth (Z.to_nat i) v d) index) ->
  index <> [] -> shift = true \/ base <> 0 ->
  exists key first cnt, GroupFromLexSort differ shift base v index junk = Some (key, first, cnt) /\
    length key = length v /\ length cnt = S (length first) /\ nth_error cnt 0 = Some 0 /\
    grouping (fun i => nth (Z.to_nat i) v d) base 1 index key first cnt /\
    (forall j, 0 <= j < Z.of_nat (length v) -> ~ In j index -> zrd key j = Some junk).
Proof.
  intros Hd He Hr Hs Hne Hb. unfold GroupFromLexSort.
  assert (Hz : false = negb shift && (base =? 0)). { destruct Hb as [-> |Hb]; auto. destruct (Z.eqb_spec base 0); [easy|]. now rewrite Bool.andb_false_r. }
  destruct (GroupIndex_ok d differ lt v Hd He false base 1 eq_refl shift index (repeat junk (length v)) (repeat junk (length index)) (repeat junk (length index + 1)))
    as (u & key & fi & cn & -> & Hu & Lk & Lf & Lc & G & Z1 & K1); auto; rewrite ?repeat_length in *; try lia.
  eexists _, _, _. split; [reflexivity|]. split; auto. split; [rewrite !firstn_length; lia|].
  split. { specialize (Z1 eq_refl Hne). rewrite zrd_some in Z1 by lia. rewrite nth_error_firstn. destruct (Nat.ltb_spec 0 (Z.to_nat u + 1)); [auto|lia]. }
  split. { replace (Z.to_nat u + 1)%nat with (Z.to_nat (u + 1)) by lia. auto. }
  intros j Hj Hn. rewrite K1 by auto. rewrite zrd_some by lia. rewrite nth_error_repeat'. destruct (Nat.ltb_spec (Z.to_nat j) (length v)); auto. lia.
Qed.
Lemma GroupFromLexSort_zero {T} (d : T) differ lt (v : list T) index junk :
  (forall x y, In x v -> In y v -> (differ x y = false <-> x = y)) -> (forall x y, In x v -> In y v -> lt x y = false -> lt y x = false -> x = y) ->
  (forall j, In j index -> 0 <= j < Z.of_nat (length v)) -> sorted lt (map (fun i => nth (Z.to_nat i) v d) index) ->
  exists key first cnt, GroupFromLexSort differ false 0 v index junk = Some (key, first, cnt) /\
    length key = length v /\ length cnt = S (length first) /\
    grouping (fun i => nth (Z.to_nat i) v d) 0 0 index key first cnt.
Proof.
  intros Hd He Hr Hs. unfold GroupFromLexSort.
  destruct (GroupIndex_ok d differ lt v Hd He true 0 0 eq_refl false index (repeat junk (length v)) (repeat junk (length index)) (repeat junk (length index + 1)))
    as (u & key & fi & cn & -> & Hu & Lk & Lf & Lc & G & Z1 & K1); auto; rewrite ?repeat_length in *; try lia.
  eexists _, _, _. split; [reflexivity|]. split; auto. split; [rewrite !firstn_length; lia|].
  destruct G as (bl & C & Lb & B & N). exists bl. split; auto. split; auto. split; auto. intros q b Hq. destruct (B q b Hq) as (i & r & -> & F1 & C1 & K2).
  exists i, r. split; auto. split; auto. split; auto. rewrite !Z.add_0_r in C1. rewrite Z.add_0_r. rewrite zrd_some, nth_error_firstn in C1 by lia. rewrite zrd_some, nth_error_firstn by lia.
  revert C1. destruct (Nat.ltb_spec (Z.to_nat (Z.of_nat q)) (Z.to_nat u)); [|discriminate]. destruct (Nat.ltb_spec (Z.to_nat (Z.of_nat q)) (Z.to_nat u + 1)); [auto|lia].
Qed.
