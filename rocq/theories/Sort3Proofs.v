(** Quick sort. *)
From Verif Require Import Base Mem MemLemmas SortModel SortSpec SortProofs Sort2Proofs.
Local Open Scope Z_scope.

Section Quick.
  Context {E : Type} (cmp : E -> E -> option bool) (lt : E -> E -> bool) (sw : strict_weak lt).

  (* every element of lo..hi *)
  Definition span (P : E -> Prop) (a : list E) (lo hi : Z) : Prop := forall k x, lo <= k <= hi -> zrd a k = Some x -> P x.

  Lemma rearr_span P a b lo hi : 0 <= lo -> lo <= hi + 1 -> hi < Z.of_nat (length a) -> rearr lo hi a b -> span P a lo hi -> span P b lo hi.
  Proof. clear. intros H1 H2 H3 R S k x Hk Hx. destruct (rearr_in lo hi a b k x) as (k' & Hk' & Hx'); auto. eapply S; eauto. Qed.
  Lemma rearr_cmp a b lo hi : rearr lo hi a b -> compares lt cmp a -> compares lt cmp b.
  Proof. intros (_ & P & _). now apply compares_perm. Qed.
  Lemma rearr_len (a b : list E) lo hi : rearr lo hi a b -> length b = length a.
  Proof. clear. now intros (L & _). Qed.

  Lemma swap_lt_ok (a : list E) lo hi i j x y : lo <= i <= hi -> lo <= j <= hi -> i <> j -> zrd a i = Some x -> zrd a j = Some y -> compares lt cmp a ->
    exists b, swap_lt cmp a i j = Some b /\ rearr lo hi a b /\
      (forall k, k <> i -> k <> j -> zrd b k = zrd a k) /\
      exists x' y', zrd b i = Some x' /\ zrd b j = Some y' /\ lt x' y' = false /\
        ((lt x y = true /\ x' = y /\ y' = x) \/ (lt x y = false /\ x' = x /\ y' = y)).
  Proof.
    intros Hi Hj Hij Rx Ry Hc. unfold swap_lt. rewrite Rx, Ry, Hc by (eapply zrd_In; eauto).
    destruct (lt x y) eqn:L.
    - destruct (swap_ok a lo hi i j x y) as (b & E1 & R & K); auto. exists b. split; auto. split; auto. split.
      + intros k H1 H2. rewrite K. destruct (Z.eqb_spec k j); [lia|]. destruct (Z.eqb_spec k i); [lia|]. auto.
      + exists y, x. rewrite !K, !Z.eqb_refl. destruct (Z.eqb_spec i j); [lia|]. repeat split; auto. now apply lt_asym.
    - exists a. split; auto. split; [apply rearr_refl|]. split; auto. exists x, y. repeat split; auto.
  Qed.

  Lemma scan_up_ok fuel : forall a pi vp e w, 0 <= pi + 1 -> pi < e < Z.of_nat (length a) -> (Z.to_nat (e - pi) <= fuel)%nat ->
    compares lt cmp a -> In vp a -> zrd a e = Some w -> lt w vp = false ->
    exists q x, scan_up cmp fuel a pi vp = Some q /\ pi < q <= e /\ zrd a q = Some x /\ lt x vp = false /\ span (fun z => lt z vp = true) a (pi + 1) (q - 1).
  Proof.
    clear sw. induction fuel as [|f IH]; intros a pi vp e w H0 He Hf Hc Hv Hw Hl; [lia|]. cbn [scan_up].
    destruct (zrd_ex a (pi + 1)) as [x Hx]; [lia|]. rewrite Hx, Hc by (auto; eapply zrd_In; eauto). destruct (lt x vp) eqn:L.
    - assert (pi + 1 <> e) by (intros <-; congruence).
      destruct (IH a (pi + 1) vp e w) as (q & y & E1 & Hq & Hy & L' & S); auto; try lia.
      exists q, y. split; auto. split; [lia|]. split; auto. split; auto. intros k z Hk Hz. destruct (Z.eq_dec k (pi + 1)) as [-> |].
      + congruence.
      + eapply S; eauto. lia.
    - exists (pi + 1), x. split; auto. split; [lia|]. split; auto. split; auto. intros k z Hk. lia.
  Qed.
  Lemma scan_down_ok fuel : forall a pj vp e w, 0 <= e < pj -> pj - 1 < Z.of_nat (length a) -> (Z.to_nat (pj - e) <= fuel)%nat ->
    compares lt cmp a -> In vp a -> zrd a e = Some w -> lt vp w = false ->
    exists q x, scan_down cmp fuel a pj vp = Some q /\ e <= q < pj /\ zrd a q = Some x /\ lt vp x = false /\ span (fun z => lt vp z = true) a (q + 1) (pj - 1).
  Proof.
    clear sw. induction fuel as [|f IH]; intros a pj vp e w He Hp Hf Hc Hv Hw Hl; [lia|]. cbn [scan_down].
    destruct (zrd_ex a (pj - 1)) as [x Hx]; [lia|]. rewrite Hx, Hc by (auto; eapply zrd_In; eauto). destruct (lt vp x) eqn:L.
    - assert (pj - 1 <> e) by (intros <-; congruence).
      destruct (IH a (pj - 1) vp e w) as (q & y & E1 & Hq & Hy & L' & S); auto; try lia.
      exists q, y. split; auto. split; [lia|]. split; auto. split; auto. intros k z Hk Hz. destruct (Z.eq_dec k (pj - 1)) as [-> |].
      + congruence.
      + eapply S; eauto. lia.
    - exists (pj - 1), x. split; auto. split; [lia|]. split; auto. split; auto. intros k z Hk. lia.
  Qed.

  Lemma part_loop_ok fuel : forall a pl pr pi pj vp, 0 <= pl -> pl <= pi -> pi < pj -> pj <= pr - 1 -> pr < Z.of_nat (length a) ->
    (Z.to_nat (pj - pi) <= fuel)%nat -> compares lt cmp a ->
    zrd a (pr - 1) = Some vp ->
    span (fun x => lt vp x = false) a pl pi -> span (fun x => lt x vp = false) a pj pr ->
    exists b q, part_loop cmp fuel a pi pj vp = Some (b, q) /\ rearr pl (pr - 2) a b /\ pl < q <= pr - 1 /\
      span (fun x => lt vp x = false) b pl (q - 1) /\ span (fun x => lt x vp = false) b q pr.
  Proof.
    induction fuel as [|f IH]; intros a pl pr pi pj vp H0 H1 H2 H3 H4 Hf Hc Hv Sl Sr; [lia|]. cbn [part_loop].
    assert (Iv : In vp a) by (eapply zrd_In; eauto).
    destruct (zrd_ex a pj) as [w Hw]; [lia|]. destruct (zrd_ex a pi) as [u Hu]; [lia|].
    destruct (scan_up_ok (length a) a pi vp pj w) as (q & x & E1 & Hq & Hx & Lx & Su); auto; try lia. { eapply Sr; eauto. lia. }
    rewrite E1. destruct (scan_down_ok (length a) a pj vp pi u) as (r & y & E2 & Hr & Hy & Ly & Sd); auto; try lia. { eapply Sl; eauto. lia. }
    rewrite E2. destruct (Z.leb_spec r q).
    - exists a, q. split; auto. split; [apply rearr_refl|]. split; [lia|]. split.
      + intros k z Hk Hz. destruct (Z.leb_spec k pi); [eapply Sl; eauto; lia|]. eapply lt_asym; [exact sw|]. eapply Su; eauto. lia.
      + intros k z Hk Hz. destruct (Z.leb_spec pj k); [eapply Sr; eauto; lia|]. destruct (Z.eq_dec k q) as [-> |]; [congruence|].
        eapply lt_asym; [exact sw|]. eapply Sd; eauto. lia.
    - destruct (swap_ok a pl (pr - 2) q r x y) as (b & E3 & R & K); auto; try lia. rewrite E3. pose proof (rearr_len _ _ _ _ R) as Lb.
      destruct (IH b pl pr q r vp) as (c & q2 & E4 & R4 & Hq2 & S1 & S2); auto; try lia.
      + eapply rearr_cmp; eauto.
      + rewrite K. destruct (Z.eqb_spec (pr - 1) r); [lia|]. destruct (Z.eqb_spec (pr - 1) q); [lia|]. auto.
      + intros k z Hk. rewrite K. destruct (Z.eqb_spec k r); [lia|]. destruct (Z.eqb_spec k q); intros Hz; [congruence|].
        destruct (Z.leb_spec k pi); [eapply Sl; eauto; lia|]. eapply lt_asym; [exact sw|]. eapply Su; eauto. lia.
      + intros k z Hk. rewrite K. destruct (Z.eqb_spec k r); intros Hz; [congruence|]. destruct (Z.eqb_spec k q); [lia|].
        destruct (Z.leb_spec pj k); [eapply Sr; eauto; lia|]. eapply lt_asym; [exact sw|]. eapply Sd; eauto. lia.
      + exists c, q2. split; auto. split; [eapply rearr_trans; eauto|]. auto.
  Qed.

  Lemma partition_ok a pl pr : 0 <= pl -> pl + 2 < pr -> pr < Z.of_nat (length a) -> compares lt cmp a ->
    exists b q vp, partition cmp a pl pr = Some (b, q) /\ rearr pl pr a b /\ pl < q < pr /\ zrd b q = Some vp /\
      span (fun x => lt vp x = false) b pl (q - 1) /\ span (fun x => lt x vp = false) b q pr.
  Proof.
    intros H0 H1 H2 Hc. unfold partition. set (pm := pl + Z.shiftr (pr - pl) 1).
    assert (Hm : pl < pm < pr - 1). { unfold pm. rewrite Z.shiftr_div_pow2 by lia. change (2 ^ 1) with 2. Z.div_mod_to_equations; lia. }
    destruct (zrd_ex a pm) as [m0 Hm0]; [lia|]. destruct (zrd_ex a pl) as [l0 Hl0]; [lia|].
    destruct (swap_lt_ok a pl pr pm pl m0 l0) as (a1 & E1 & R1 & K1 & m1 & l1 & Hm1 & Hl1 & L1 & _); auto; try lia. rewrite E1.
    pose proof (rearr_len _ _ _ _ R1). assert (C1 : compares lt cmp a1) by (eapply rearr_cmp; eauto).
    destruct (zrd_ex a1 pr) as [r1 Hr1]; [lia|].
    destruct (swap_lt_ok a1 pl pr pr pm r1 m1) as (a2 & E2 & R2 & K2 & r2 & m2 & Hr2 & Hm2 & L2 & D2); auto; try lia. rewrite E2.
    pose proof (rearr_len _ _ _ _ R2). assert (C2 : compares lt cmp a2) by (eapply rearr_cmp; eauto).
    assert (Hl2 : zrd a2 pl = Some l1) by (rewrite K2; auto; lia).
    destruct (swap_lt_ok a2 pl pr pm pl m2 l1) as (a3 & E3 & R3 & K3 & m3 & l3 & Hm3 & Hl3 & L3 & D3); auto; try lia. rewrite E3.
    pose proof (rearr_len _ _ _ _ R3). assert (C3 : compares lt cmp a3) by (eapply rearr_cmp; eauto).
    assert (Hr3 : zrd a3 pr = Some r2) by (rewrite K3; auto; lia).
    rewrite Hm3. destruct (zrd_ex a3 (pr - 1)) as [z Hz]; [lia|].
    destruct (swap_ok a3 pl pr pm (pr - 1) m3 z) as (a4 & E4 & R4 & K4); auto; try lia. rewrite E4.
    pose proof (rearr_len _ _ _ _ R4). assert (C4 : compares lt cmp a4) by (eapply rearr_cmp; eauto).
    (* the ends around the pivot *)
    assert (Lr : lt r2 m3 = false).
    { destruct D3 as [(T & -> & ->)|(T & -> & ->)].
      - destruct D2 as [(T2 & -> & ->)|(T2 & -> & ->)]; auto. eapply nlt_tr; [exact sw| |exact T2]. exact L1.
      - auto. }
    destruct (part_loop_ok (length a4) a4 pl pr pl (pr - 1) m3) as (a5 & q & E5 & R5 & Hq & S1 & S2); auto; try lia.
    - rewrite K4, Z.eqb_refl. auto.
    - intros k x Hk. assert (k = pl) as -> by lia. rewrite K4. destruct (Z.eqb_spec pl (pr - 1)); [lia|]. destruct (Z.eqb_spec pl pm); [lia|].
      rewrite Hl3. intros [= <-]. auto.
    - intros k x Hk. rewrite K4. destruct (Z.eqb_spec k (pr - 1)). { intros [= <-]. now apply lt_irr. }
      assert (k = pr) as -> by lia. destruct (Z.eqb_spec pr pm); [lia|]. rewrite Hr3. intros [= <-]. auto.
    - rewrite E5. pose proof (rearr_len _ _ _ _ R5). destruct (zrd_ex a5 q) as [x Hx]; [lia|].
      assert (Hv : zrd a5 (pr - 1) = Some m3). { destruct R5 as (_ & _ & F). rewrite F by lia. rewrite K4, Z.eqb_refl. auto. }
      destruct (swap_ok a5 pl pr q (pr - 1) x m3) as (a6 & E6 & R6 & K6); auto; try lia. rewrite E6.
      exists a6, q, m3. split; auto. split.
      { eapply rearr_trans; [exact R1|]. eapply rearr_trans; [exact R2|]. eapply rearr_trans; [exact R3|]. eapply rearr_trans; [exact R4|].
        eapply rearr_trans; [|exact R6]. eapply rearr_mono; [| |exact R5]; lia. }
      split; [lia|]. split.
      { rewrite K6, Z.eqb_refl. destruct (Z.eqb_spec q (pr - 1)); auto. subst q. congruence. }
      split.
      + intros k y Hk. rewrite K6. destruct (Z.eqb_spec k (pr - 1)); [lia|]. destruct (Z.eqb_spec k q); [lia|]. apply S1; auto.
      + intros k y Hk. rewrite K6. destruct (Z.eqb_spec k (pr - 1)); intros Hy.
        * injection Hy as <-. apply (S2 q); auto. lia.
        * destruct (Z.eqb_spec k q). { injection Hy as <-. now apply lt_irr. } eapply S2; eauto.
  Qed.

  (** the loop: everything is in order except inside the pending ranges *)
  Definition range := (Z * Z)%type.
  Definition inr (k : Z) (r : range) : Prop := fst r <= k <= snd r.
  Definition in_order_but (a : list E) (rs : list range) : Prop :=
    forall i j x y, 0 <= i < j -> zrd a i = Some x -> zrd a j = Some y -> (exists r, In r rs /\ inr i r /\ inr j r) \/ lt y x = false.
  Definition disjoint_ranges (rs : list range) : Prop :=
    ForallOrdPairs (fun r1 r2 => snd r1 < fst r2 \/ snd r2 < fst r1) rs.
  Definition rs_ok (len : Z) (rs : list range) : Prop := Forall (fun r => 0 <= fst r /\ fst r <= snd r + 1 /\ snd r < len) rs.
  Definition size (r : range) : Z := snd r - fst r + 1.

  (* ranges of the stack *)
  Definition st_rs (st : list (Z * Z * Z)) : list range := map fst st.
  Fixpoint st_bound (num : Z) (st : list (Z * Z * Z)) : Prop :=
    match st with [] => True | (r, _) :: st => size r * 2 ^ Z.of_nat (length st) <= num /\ st_bound num st end.
  Definition weight (rs : list range) : nat := nsum (map (fun r => Z.to_nat (2 * size r + 1)) rs).

  Lemma fop_inv {A} (R : A -> A -> Prop) x l : ForallOrdPairs R (x :: l) -> Forall (R x) l /\ ForallOrdPairs R l.
  Proof. clear. inversion 1; auto. Qed.

  (* changing one range [r] only *)
  Lemma in_order_rearr a b r rs : rs_ok (Z.of_nat (length a)) (r :: rs) -> disjoint_ranges (r :: rs) ->
    rearr (fst r) (snd r) a b -> in_order_but a (r :: rs) -> in_order_but b (r :: rs).
  Proof.
    clear sw. intros Hok Hd R H i j x y Hij Hx Hy. apply Forall_inv in Hok as Hr. destruct Hr as (Hr0 & Hr1 & Hr2).
    apply fop_inv in Hd. destruct Hd as [Hd _]. rewrite Forall_forall in Hd.
    pose proof R as (_ & _ & F).
    assert (Dec : forall k, inr k r \/ (k < fst r \/ snd r < k)) by (intros k; unfold inr; lia).
    destruct (Dec i) as [Ii|Oi], (Dec j) as [Ij|Oj].
    - left. exists r. split; [now left|]. auto.
    - destruct (rearr_in (fst r) (snd r) a b i x) as (i' & Hi' & Hx'); auto. rewrite F in Hy by auto.
      destruct (H i' j x y) as [(r' & Hr' & A & B)|]; auto. { unfold inr in *. lia. }
      destruct Hr' as [<-|Hr']. { unfold inr in *. lia. } specialize (Hd r' Hr'). unfold inr in *. lia.
    - destruct (rearr_in (fst r) (snd r) a b j y) as (j' & Hj' & Hy'); auto. rewrite F in Hx by auto.
      destruct (H i j' x y) as [(r' & Hr' & A & B)|]; auto. { unfold inr in *. lia. }
      destruct Hr' as [<-|Hr']. { unfold inr in *. lia. } specialize (Hd r' Hr'). unfold inr in *. lia.
    - rewrite F in Hx, Hy by auto. apply (H i j); auto.
  Qed.
  (* a sorted range is no longer pending *)
  Lemma in_order_drop a r rs : in_order_but a (r :: rs) ->
    (forall i j x y, inr i r -> inr j r -> i < j -> zrd a i = Some x -> zrd a j = Some y -> lt y x = false) -> in_order_but a rs.
  Proof.
    clear sw. intros H S i j x y Hij Hx Hy. destruct (H i j x y) as [(r' & [<-|Hr'] & A & B)|]; auto.
    - right. apply (S i j); auto. lia.
    - left. eauto.
  Qed.
  Lemma in_order_perm a rs rs' : (forall r, In r rs -> In r rs') -> in_order_but a rs -> in_order_but a rs'.
  Proof. clear sw. intros Hr H i j x y Hij Hx Hy. destruct (H i j x y) as [(r & A & B)|]; auto. left. eauto. Qed.

  Lemma in_order_split a pl pr q vp rs : in_order_but a ((pl, pr) :: rs) -> pl < q < pr -> zrd a q = Some vp ->
    span (fun x => lt vp x = false) a pl (q - 1) -> span (fun x => lt x vp = false) a q pr ->
    in_order_but a ((pl, q - 1) :: (q + 1, pr) :: rs).
  Proof.
    intros H Hq Hv Sl Sr i j x y Hij Hx Hy. destruct (H i j x y) as [(r' & [<-|Hr'] & A & B)|]; auto.
    - unfold inr in A, B. cbn [fst snd] in *. destruct (Z.ltb_spec j q) as [J1|J1].
      { left. exists (pl, q - 1). split; [now left|]. unfold inr. cbn [fst snd]. lia. }
      destruct (Z.ltb_spec q i) as [I1|I1].
      { left. exists (q + 1, pr). split; [right; now left|]. unfold inr. cbn [fst snd]. lia. }
      right. assert (A1 : lt y vp = false) by (eapply Sr; eauto; lia).
      assert (A2 : lt vp x = false). { destruct (Z.eq_dec i q) as [-> |]; [|eapply Sl; eauto; lia]. rewrite Hv in Hx. injection Hx as <-. now apply lt_irr. }
      eapply nlt_tr; [exact sw|exact A2|exact A1].
    - left. exists r'. split; auto. now right; right.
  Qed.

  Lemma sorted_span p l q i j x y : sorted lt l -> Z.of_nat (length p) <= i -> i < j -> j < Z.of_nat (length p) + Z.of_nat (length l) ->
    zrd (p ++ l ++ q) i = Some x -> zrd (p ++ l ++ q) j = Some y -> lt y x = false.
  Proof.
    clear sw. intros S Hi Hij Hj Hx Hy. rewrite zrd_some in Hx, Hy by lia. rewrite nth_error_app2, nth_error_app1 in Hx, Hy by lia.
    eapply S; [|exact Hx|exact Hy]. lia.
  Qed.

  Lemma sub_range (a : list E) lo hi : 0 <= lo -> lo <= hi + 1 -> hi < Z.of_nat (length a) ->
    exists p l q, a = p ++ l ++ q /\ Z.of_nat (length p) = lo /\ Z.of_nat (length l) = hi - lo + 1.
  Proof. clear. intros H1 H2 H3. destruct (rearr_split lo hi a a) as (p & m & m' & q & A & _ & _ & B & C); auto using rearr_refl. eauto 8. Qed.

  (* sorting the top range by insertion or as a heap *)
  Lemma leaf_ok a pl pr : 0 <= pl -> pl <= pr + 1 -> pr < Z.of_nat (length a) -> compares lt cmp a ->
    (exists b, insertion_sort cmp a pl (pr + 1) = Some b /\ rearr pl pr a b /\
       forall i j x y, pl <= i -> i < j -> j <= pr -> zrd b i = Some x -> zrd b j = Some y -> lt y x = false) /\
    (exists b, heapsort cmp a pl (pr - pl + 1) = Some b /\ rearr pl pr a b /\
       forall i j x y, pl <= i -> i < j -> j <= pr -> zrd b i = Some x -> zrd b j = Some y -> lt y x = false).
  Proof.
    intros H0 H1 H2 Hc. destruct (sub_range a pl pr) as (p & l & q & -> & Hp & Hl); auto.
    assert (Hcl : compares lt cmp l). { intros x y Hx Hy. apply Hc; rewrite !in_app_iff; auto. }
    split.
    - destruct (insertion_ok cmp lt sw l p q pl (pr + 1)) as (r & E1 & Hst); auto; try lia.
      destruct Hst as (P & S & _). exists (p ++ r ++ q). split; auto. split; [apply split_rearr; auto; lia|].
      intros i j x y Hi Hij Hj Hx Hy. pose proof (Permutation_length P). eapply (sorted_span p r q i j); eauto; lia.
    - destruct (heapsort_ok cmp lt sw p q l (pr - pl + 1)) as (r & E1 & P & S); auto; try lia.
      exists (p ++ r ++ q). rewrite <- Hp at 1. split; auto. split; [apply split_rearr; auto; lia|].
      intros i j x y Hi Hij Hj Hx Hy. pose proof (Permutation_length P). eapply (sorted_span p r q i j); eauto; lia.
  Qed.

  Lemma weight_cons r rs : weight (r :: rs) = (Z.to_nat (2 * size r + 1) + weight rs)%nat.
  Proof. reflexivity. Qed.

  Lemma quick_loop_ok num fuel : forall top a pl pr d st,
    num < 2 ^ 63 ->
    rs_ok (Z.of_nat (length a)) ((pl, pr) :: st_rs st) -> disjoint_ranges ((pl, pr) :: st_rs st) ->
    in_order_but a ((pl, pr) :: st_rs st) -> compares lt cmp a ->
    size (pl, pr) * 2 ^ Z.of_nat (length st) <= num -> st_bound num st ->
    (weight ((pl, pr) :: st_rs st) <= fuel)%nat ->
    exists r, quick_loop cmp fuel top a pl pr d st = Some r /\ Permutation a r /\ in_order_but r [].
  Proof.
    induction fuel as [|f IH]; intros top a pl pr d st Hnum Hok Hd Hin Hc Hsz Hst Hw.
    { rewrite weight_cons in Hw. apply Forall_inv in Hok. unfold size in Hw. cbn [fst snd] in *. lia. }
    cbn [quick_loop].
    set (pop := fun a0 : list E => match st with [] => Some a0 | (pl0, pr0, d0) :: st0 => quick_loop cmp f true a0 pl0 pr0 d0 st0 end).
    pose proof (Forall_inv Hok) as (B0 & B1 & B2). cbn [fst snd] in B0, B1, B2.
    assert (Pop : forall b, rearr pl pr a b -> (forall i j x y, pl <= i -> i < j -> j <= pr -> zrd b i = Some x -> zrd b j = Some y -> lt y x = false) ->
      exists r, pop b = Some r /\ Permutation a r /\ in_order_but r []).
    { intros b R S. pose proof (rearr_len _ _ _ _ R) as Lb.
      assert (I2 : in_order_but b (st_rs st)).
      { eapply in_order_drop with (r := (pl, pr)); [eapply in_order_rearr; eauto|]. intros i j x y Hi Hj Hij. unfold inr in *. cbn [fst snd] in *. apply S; lia. }
      unfold pop. destruct st as [|[[pl' pr'] d'] st].
      - exists b. split; auto. split; [apply R|auto].
      - destruct (IH true b pl' pr' d' st) as (r & E1 & P1 & I1); auto.
        + rewrite Lb. now apply Forall_inv_tail in Hok.
        + now apply fop_inv in Hd.
        + eapply rearr_cmp; eauto.
        + apply Hst.
        + apply Hst.
        + rewrite weight_cons in Hw. unfold size in Hw at 1. cbn [st_rs map fst snd] in *. fold (st_rs st) in *. lia.
        + exists r. split; auto. split; auto. eapply perm_trans; [apply R|auto]. }
    destruct (leaf_ok a pl pr) as [(b1 & E1 & R1 & S1) (b2 & E2 & R2 & S2)]; auto.
    destruct (top && (d <? 0))%bool. { rewrite E2. fold (pop b2). apply Pop; auto. }
    destruct (Z.ltb_spec 15 (pr - pl)) as [Hbig|]. 2:{ rewrite E1. fold (pop b1). apply Pop; auto. }
    clear Pop pop b1 b2 E1 R1 S1 E2 R2 S2.
    destruct (partition_ok a pl pr) as (b & q & vp & E1 & R & Hq & Hv & Sl & Sr); auto; try lia. rewrite E1.
    pose proof (rearr_len _ _ _ _ R) as Lb.
    assert (Cb : compares lt cmp b) by (eapply rearr_cmp; eauto).
    assert (Ib : in_order_but b ((pl, q - 1) :: (q + 1, pr) :: st_rs st)).
    { eapply in_order_split; eauto. eapply in_order_rearr; eauto. }
    (* room on the stack *)
    assert (Hroom : (length st < 64)%nat).
    { destruct (Nat.ltb_spec (length st) 64); auto. exfalso.
      assert (2 ^ 64 <= 2 ^ Z.of_nat (length st)) by (apply Z.pow_le_mono_r; lia).
      unfold size in Hsz. cbn [fst snd] in Hsz. change (2 ^ 64) with (2 * 2 ^ 63) in *. nia. }
    assert (Hp1 : qs_push st (q + 1, pr, d - 1) = Some ((q + 1, pr, d - 1) :: st)).
    { unfold qs_push. apply Nat.ltb_lt in Hroom. now rewrite Hroom. }
    assert (Hp2 : qs_push st (pl, q - 1, d - 1) = Some ((pl, q - 1, d - 1) :: st)).
    { unfold qs_push. apply Nat.ltb_lt in Hroom. now rewrite Hroom. }
    assert (Hpow : 2 ^ Z.of_nat (S (length st)) = 2 * 2 ^ Z.of_nat (length st)) by (rewrite Nat2Z.inj_succ, Z.pow_succ_r by lia; auto).
    assert (Hpos : 0 < 2 ^ Z.of_nat (length st)) by (apply Z.pow_pos_nonneg; lia).
    pose proof (Forall_inv_tail Hok) as Hok'. apply fop_inv in Hd. destruct Hd as [Hd1 Hd2].
    rewrite weight_cons in Hw. unfold size in Hw at 1. unfold size in Hsz. cbn [fst snd] in Hw, Hsz.
    assert (DL : Forall (fun r2 : range => snd (pl, q - 1) < fst r2 \/ snd r2 < fst (pl, q - 1)) (st_rs st)).
    { eapply Forall_impl; [|exact Hd1]. intros r. cbn [fst snd]. lia. }
    assert (DR : Forall (fun r2 : range => snd (q + 1, pr) < fst r2 \/ snd r2 < fst (q + 1, pr)) (st_rs st)).
    { eapply Forall_impl; [|exact Hd1]. intros r. cbn [fst snd]. lia. }
    destruct (Z.ltb_spec (q - pl) (pr - q)).
    - rewrite Hp1. destruct (IH false b pl (q - 1) (d - 1) ((q + 1, pr, d - 1) :: st)) as (r & E2 & P2 & I2); auto.
      + rewrite Lb. constructor; [cbn [fst snd]; lia|]. constructor; [cbn [fst snd]; lia|]. auto.
      + constructor. { constructor; [cbn [fst snd]; lia|]. auto. } constructor; auto.
      + cbn [length]. rewrite Hpow. unfold size. cbn [fst snd]. nia.
      + cbn [st_bound]. split; auto. unfold size. cbn [fst snd]. nia.
      + cbn [st_rs map]. fold (st_rs st). rewrite !weight_cons. unfold size at 1 2. cbn [fst snd]. lia.
      + exists r. split; auto. split; auto. eapply perm_trans; [apply R|auto].
    - rewrite Hp2. destruct (IH false b (q + 1) pr (d - 1) ((pl, q - 1, d - 1) :: st)) as (r & E2 & P2 & I2); auto.
      + rewrite Lb. constructor; [cbn [fst snd]; lia|]. constructor; [cbn [fst snd]; lia|]. auto.
      + constructor. { constructor; [cbn [fst snd]; lia|]. auto. } constructor; auto.
      + eapply in_order_perm; [|exact Ib]. intros r [<-|[<-|Hr]]; [right; now left|now left|right; now right].
      + cbn [length]. rewrite Hpow. unfold size. cbn [fst snd]. nia.
      + cbn [st_bound]. split; auto. unfold size. cbn [fst snd]. nia.
      + cbn [st_rs map]. fold (st_rs st). rewrite !weight_cons. unfold size at 1 2. cbn [fst snd]. lia.
      + exists r. split; auto. split; auto. eapply perm_trans; [apply R|auto].
  Qed.

  Lemma quicksort_ok a : Z.of_nat (length a) < 2 ^ 63 -> compares lt cmp a ->
    exists r, quicksort cmp a (Z.of_nat (length a)) = Some r /\ Permutation a r /\ sorted lt r.
  Proof.
    intros Hn Hc. unfold quicksort. set (n := Z.of_nat (length a)) in *.
    destruct (quick_loop_ok n (S (Z.to_nat (2 * n))) true a 0 (n - 1) (npy_get_msb n * 2) []) as (r & E1 & P & I); auto.
    - constructor; [cbn [fst snd]; lia|constructor].
    - constructor; constructor.
    - intros i j x y Hij Hx Hy. left. exists (0, n - 1). split; [now left|]. apply zrd_inv in Hx, Hy. unfold inr. cbn [fst snd]. lia.
    - unfold size. cbn [length fst snd]. lia.
    - constructor.
    - rewrite weight_cons. unfold size. cbn [fst snd st_rs map weight nsum]. unfold weight. simpl nsum. lia.
    - exists r. split; auto. split; auto. intros i j x y Hij Hx Hy.
      destruct (I (Z.of_nat i) (Z.of_nat j) x y) as [(r' & [] & _)|]; auto; try lia; rewrite zrd_some, Nat2Z.id by lia; auto.
  Qed.
End Quick.
