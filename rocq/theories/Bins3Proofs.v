From Verif Require Import Base MemLemmas Par Num BinsModel BinsSpec BinsProofs Bins2Proofs.
Local Open Scope Z_scope.

(** ** Cutting with a sort index *)

Lemma count_while_split {A} (p : A -> bool) l :
  (forall x, In x (firstn (count_while p l) l) -> p x = true) /\
  (forall x r, skipn (count_while p l) l = x :: r -> p x = false).
Proof.
  induction l as [|x l IH]; simpl; [split; [tauto|discriminate]|].
  destruct (p x) eqn:E; simpl.
  - split; [intros y [<-|Hy]; auto; now apply IH | apply IH].
  - split; [tauto|]. intros y r H. inversion H; subst; auto.
Qed.

Lemma count_while_le {A} (p : A -> bool) l : (count_while p l <= length l)%nat.
Proof. induction l as [|x l IH]; simpl; auto. destruct (p x); simpl; lia. Qed.

(** rows written once each: the final contents *)
Lemma writes_each (ws : list (Z * Z)) out (n : nat) : length out = n ->
  Permutation (map fst ws) (map Z.of_nat (seq 0 n)) ->
  exists out', writes ws out = Some out' /\ length out' = n /\
    forall i r, In (Z.of_nat i, r) ws -> nth_error out' i = Some r.
Proof.
  intros L P.
  assert (ND : NoDup (map fst ws)).
  { apply (Permutation_NoDup (Permutation_sym P)). apply FinFun.Injective_map_NoDup; [intros x y; lia|apply seq_NoDup]. }
  destruct (writes_total ws out) as (o & E & Lo).
  { intros i x H. assert (Q : In i (map fst ws)) by (apply in_map_iff; exists (i, x); auto).
    apply (Permutation_in _ P) in Q. apply in_map_iff in Q as (k & <- & Q). apply in_seq in Q. lia. }
  exists o. split; auto. split; [congruence|]. intros i r H.
  rewrite (writes_read ws out o ND E i).
  destruct (find (fun w => fst w =? Z.of_nat i) ws) as [[j y]|] eqn:F.
  - apply find_some in F as [F1 F2]. simpl in F2. apply Z.eqb_eq in F2. subst j. simpl. f_equal.
    clear -ND F1 H. induction ws as [|[a b] ws IH]; [destruct H|]. simpl in ND. inversion ND as [|? ? N1 N2]; subst.
    destruct F1 as [F1|F1], H as [H|H]; try congruence.
    + inversion F1; subst. exfalso. apply N1, in_map_iff. exists (Z.of_nat i, r). auto.
    + inversion H; subst. exfalso. apply N1, in_map_iff. exists (Z.of_nat i, y). auto.
    + auto.
  - exfalso. assert (Q := find_none _ _ F _ H). simpl in Q. lia.
Qed.

Lemma writes_app {A} (a b : list (Z * A)) out : writes (a ++ b) out = match writes a out with Some o => writes b o | None => None end.
Proof. revert out; induction a as [|[i x] a IH]; simpl; intros out; auto. destruct (zwr out i x); auto. Qed.

Section SortedCut.
  Context (vals : list fl) (edges : list Z).
  Let n := Z.of_nat (length edges).
  Context (e0 el : Z) (E0 : nth_error edges 0 = Some e0) (El : nth_error edges (length edges - 1) = Some el).
  Context (Hn : 2 <= n) (Ha : strictly_ascending edges).

  (** the outcome of a row *)
  Definition row_ok (i r : Z) : Prop := sorted_bin edges (value_at vals i) r.
  Definition rows (ix : list Z) (rs : list Z) : Prop := Forall2 row_ok ix rs.

  Definition finite_in (i : Z) (z : Z) : Prop := zrd vals i = Some (Fin z).

  Lemma edge_at k x : 0 <= k -> zrd edges k = Some x <-> nth_error edges (Z.to_nat k) = Some x.
  Proof. intros. rewrite zrd_some by auto. tauto. Qed.

  Lemma mbs_next_spec fuel z : z <= el -> forall bin e, 0 <= bin -> zrd edges bin = Some e -> e < z -> n - bin < Z.of_nat fuel ->
    exists bin' lo hi, mbs_next edges fuel (Fin z) bin (Fin e) = Some (bin', Fin hi) /\ bin < bin' < n /\
      zrd edges (bin' - 1) = Some lo /\ zrd edges bin' = Some hi /\ lo < z <= hi.
  Proof.
    intros Hz. induction fuel as [|fuel IH]; intros bin e Hb Eb Hlt Hf.
    { apply zrd_inv in Eb. unfold n in *. lia. }
    cbn [mbs_next]. assert (B := zrd_inv _ _ _ Eb). unfold n in *. destruct B as [B _].
    destruct (Z.ltb_spec bin (Z.of_nat (length edges))); [|lia]. cbn [andb flt].
    destruct (Z.ltb_spec e z); [|lia].
    assert (Hnl : bin <> Z.of_nat (length edges) - 1).
    { intros Q. apply edge_at in Eb; [|auto]. replace (Z.to_nat bin) with (length edges - 1)%nat in Eb by lia. assert (e = el) by congruence. lia. }
    destruct (zrd_in edges (bin + 1)) as (e' & E'); [lia|]. rewrite E'.
    destruct (Z.ltb_spec e' z).
    - destruct (IH (bin + 1) e') as (b' & lo & hi & P & Q & R1 & R2 & R3); auto; try lia. exists b', lo, hi. repeat split; auto; lia.
    - destruct fuel as [|fuel]; [lia|]. cbn [mbs_next]. cbn [flt].
      replace (e' <? z) with false by lia. rewrite andb_false_r.
      exists (bin + 1), e, e'. replace (bin + 1 - 1) with bin by lia. repeat split; auto; lia.
  Qed.

  Lemma bin_ok i z b lo hi : finite_in i z -> 1 <= b -> zrd edges (b - 1) = Some lo -> zrd edges b = Some hi ->
    lo < z <= hi \/ (b = 1 /\ z = e0) -> row_ok i (b + 1).
  Proof.
    intros Hi Hb Elo Ehi H. unfold row_ok, value_at. rewrite Hi. unfold sorted_bin. simpl. right. exists b. split; auto.
    apply edge_at in Elo; [|lia]. apply edge_at in Ehi; [|lia].
    destruct H as [H|[-> ->]].
    - left. split; auto. exists lo, hi. rewrite flt_fin, fle_fin_r. repeat split; auto; lia.
    - right. split; auto. exists e0. split; auto. simpl. apply Z.eqb_refl.
  Qed.

  Lemma mbs_mid_spec ix : forall bin e out,
    (forall i, In i ix -> 0 <= i < Z.of_nat (length out)) ->
    (forall i, In i ix -> exists z, finite_in i z /\ e0 <= z <= el) ->
    (forall i j a b, (i < j)%nat -> nth_error ix i = Some a -> nth_error ix j = Some b -> num_le (value_at vals a) (value_at vals b) = true) ->
    0 <= bin -> zrd edges bin = Some e ->
    (bin = 0 -> forall i z, In i ix -> finite_in i z -> e0 < z) ->
    (1 <= bin -> forall i z, In i ix -> finite_in i z -> exists lo, zrd edges (bin - 1) = Some lo /\ (lo < z \/ bin = 1 /\ z = e0)) ->
    exists rs, rows ix rs /\ mbs_mid vals edges bin (Fin e) ix out = writes (combine ix rs) out.
  Proof.
    induction ix as [|i ix IH]; intros bin e out Hix Hfin Hsort Hb Eb H0 H1.
    { exists []. split; [constructor|reflexivity]. }
    cbn [mbs_mid]. destruct (Hfin i (or_introl eq_refl)) as (z & Fz & Rz). rewrite Fz.
    assert (Step : forall bin' e' lo, 1 <= bin' -> zrd edges (bin' - 1) = Some lo -> zrd edges bin' = Some e' ->
      lo < z <= e' \/ (bin' = 1 /\ z = e0) ->
      exists rs, rows (i :: ix) rs /\
        match zwr out i (bin' + 1) with Some out' => mbs_mid vals edges bin' (Fin e') ix out' | None => None end = writes (combine (i :: ix) rs) out).
    { intros bin' e' lo Hb' El' Eb' Hz.
      destruct (IH bin' e' (upd out (Z.to_nat i) (bin' + 1))) as (rs & Rs & Es); auto; try lia.
      - intros j Hj. rewrite length_upd. apply Hix; now right.
      - intros j Hj. apply Hfin; now right.
      - intros a b x y Hab Hx Hy. apply (Hsort (S a) (S b)); auto; lia.
      - intros _ j y Hj Fy. exists lo. split; auto.
        assert (z <= y).
        { apply In_nth_error in Hj as (k & Hk). assert (Q := Hsort 0%nat (S k) i j ltac:(lia) eq_refl Hk).
          unfold value_at in Q. rewrite Fz, Fy in Q. unfold num_le in Q. rewrite fle_fin in Q. simpl in Q. lia. }
        destruct Hz as [Hz|[Q1 Q2]]; [left; lia|].
        destruct (Z.eq_dec y e0); [now right|left].
        apply edge_at in El'; [|lia]. replace (Z.to_nat (bin' - 1)) with 0%nat in El' by lia. assert (lo = e0) by congruence. lia.
      - exists ((bin' + 1) :: rs). split.
        + constructor; auto. eapply bin_ok; eauto.
        + cbn [combine writes]. rewrite zwr_some by (apply Hix; now left). exact Es. }
    rewrite fle_fin_r.
    destruct (Z.leb_spec z e) as [Hze|Hze].
    - assert (1 <= bin).
      { destruct (Z.eq_dec bin 0) as [->|]; [|lia]. specialize (H0 eq_refl i z (or_introl eq_refl) Fz).
        rewrite zrd_some in Eb by lia. change (Z.to_nat 0) with 0%nat in Eb. assert (e = e0) by congruence. lia. }
      destruct (H1 H i z (or_introl eq_refl) Fz) as (lo & Elo & Hlo).
      eapply Step; eauto. lia.
    - destruct (mbs_next_spec (S (length edges)) z ltac:(lia) bin e Hb Eb Hze) as (b' & lo & hi & E' & B' & Elo & Ehi & Hlh).
      { unfold n. lia. }
      rewrite E'. destruct (Z.leb_spec (Z.of_nat (length edges)) b'); [unfold n in *; lia|].
      eapply (Step b' hi lo); eauto. lia.
  Qed.

  Lemma mbs_below_spec ix : forall out,
    (forall i, In i ix -> 0 <= i < Z.of_nat (length out)) ->
    (forall i, In i ix -> exists z, finite_in i z) ->
    exists done rest rs, ix = done ++ rest /\ rows done rs /\
      (forall i r z, rest = i :: r -> finite_in i z -> e0 <= z) /\
      mbs_below vals (Fin e0) ix out = match writes (combine done rs) out with Some o => Some (o, rest) | None => None end.
  Proof.
    induction ix as [|i ix IH]; intros out Hix Hfin.
    { exists [], [], []. repeat split; auto; try constructor; discriminate. }
    cbn [mbs_below]. destruct (Hfin i (or_introl eq_refl)) as (z & Fz). rewrite Fz. cbn [flt].
    destruct (Z.ltb_spec z e0).
    - rewrite zwr_some by (apply Hix; now left).
      destruct (IH (upd out (Z.to_nat i) 1)) as (dn & rest & rs & -> & R & Hr & E).
      + intros j Hj. rewrite length_upd. apply Hix; now right.
      + intros j Hj. apply Hfin; now right.
      + exists (i :: dn), rest, (1 :: rs). repeat split; auto.
        * constructor; auto. unfold row_ok, value_at. rewrite Fz. unfold sorted_bin. simpl. left. split; auto.
          intros (b & [(Hb & lo & hi & L1 & L2 & C1 & C2)|(-> & e & L & C)]).
          -- cbn [flt] in C1. assert (e0 <= lo); [|lia].
             destruct (Z.eq_dec b 1) as [->|]; [change (Z.to_nat (1 - 1)) with 0%nat in L1; assert (lo = e0) by congruence; lia|].
             enough (e0 < lo) by lia. eapply (Ha 0%nat (Z.to_nat (b - 1))); eauto. lia.
          -- simpl in C. assert (e = e0) by congruence. lia.
        * rewrite E. cbn [combine writes]. rewrite zwr_some by (apply Hix; now left). reflexivity.
    - exists [], (i :: ix), []. repeat split; auto; try constructor.
      intros j r y Hj Fy. inversion Hj; subst. unfold finite_in in *. assert (y = z) by congruence. lia.
  Qed.
End SortedCut.

(** decomposition of a sorted sequence by the counts *)
Lemma nan_inf_count vs nan pos neg :
  (forall i j a b, (i < j)%nat -> nth_error vs i = Some a -> nth_error vs j = Some b -> num_le a b = true) ->
  NanInfCount vs = (nan, pos, neg) ->
  exists A M B, vs = A ++ M ++ B /\ length A = neg /\ length B = (nan + pos)%nat /\
    (forall v, In v A -> is_finite v = false) /\ (forall v, In v M -> is_finite v = true) /\ (forall v, In v B -> is_finite v = false).
Proof.
  intros Hs E. unfold NanInfCount in E. injection E as E1 E2 E3.
  set (p1 := fun v => negb (feq v v)) in *. set (p2 := fun v => feq v PInf) in *. set (p3 := fun v => feq v NInf) in *.
  rewrite E1 in E2, E3. rewrite E2 in E3.
  (* the reversed list: NaNs, then +inf, then the rest *)
  set (r := rev vs) in *.
  assert (L1 : (nan <= length r)%nat) by (rewrite <- E1; apply count_while_le).
  assert (L2 : (pos <= length (skipn nan r))%nat) by (rewrite <- E2; apply count_while_le). rewrite skipn_length in L2.
  destruct (count_while_split p1 r) as [N1 N2]. rewrite E1 in N1, N2.
  destruct (count_while_split p2 (skipn nan r)) as [P1 P2]. rewrite E2 in P1, P2.
  assert (Hr : r = firstn nan r ++ firstn pos (skipn nan r) ++ skipn pos (skipn nan r)) by (now rewrite !firstn_skipn).
  set (B1 := firstn nan r) in *. set (B2 := firstn pos (skipn nan r)) in *. set (R := skipn pos (skipn nan r)) in *.
  assert (LB1 : length B1 = nan) by (unfold B1; rewrite firstn_length; lia).
  assert (LB2 : length B2 = pos) by (unfold B2; rewrite firstn_length, skipn_length; lia).
  assert (Hv : vs = rev R ++ rev B2 ++ rev B1).
  { assert (Q : rev (rev vs) = rev r) by reflexivity. rewrite rev_involutive in Q. rewrite Q. rewrite Hr at 1. now rewrite !rev_app_distr, app_assoc. }
  assert (LR : length vs = (length (rev R) + (nan + pos))%nat).
  { rewrite Hv at 1. rewrite !app_length, !rev_length. lia. }
  assert (E3' : count_while p3 (rev R) = neg).
  { rewrite <- E3. f_equal. rewrite LR. rewrite Hv at 1. rewrite firstn_app. replace (length (rev R) + (nan + pos) - nan - pos - length (rev R))%nat with 0%nat by lia.
    rewrite firstn_all2 by lia. simpl. now rewrite app_nil_r. }
  destruct (count_while_split p3 (rev R)) as [Q1 Q2]. rewrite E3' in Q1, Q2.
  assert (LN : (neg <= length (rev R))%nat) by (rewrite <- E3'; apply count_while_le).
  exists (firstn neg (rev R)), (skipn neg (rev R)), (rev B2 ++ rev B1).
  split; [now rewrite app_assoc, firstn_skipn|]. split; [rewrite firstn_length; lia|].
  split; [rewrite app_length, !rev_length; lia|].
  assert (NoNaN : forall v, In v (rev R) -> is_nan v = false /\ feq v PInf = false).
  { (* the last element of rev R is neither NaN nor +inf; all before are <= *)
    destruct R as [|x R'] eqn:ER; [simpl; tauto|].
    assert (Px : p2 x = false) by (apply (P2 x R'); reflexivity).
    assert (Nx : is_nan x = false).
    { destruct pos as [|pos'].
      - unfold R in ER. simpl in ER. specialize (N2 x R' ER). unfold p1 in N2. rewrite feq_refl_nan in N2. now destruct (is_nan x).
      - destruct (skipn nan r) as [|y s] eqn:Es; [unfold R in ER; discriminate|].
        specialize (N2 y s eq_refl). unfold p1 in N2. rewrite feq_refl_nan in N2.
        (* y is at a later position of vs than x: x <= y *)
        assert (HB2 : exists t, B2 = y :: t) by (exists (firstn pos' s); reflexivity). destruct HB2 as [t HB2].
        assert (Q : num_le x y = true).
        { apply (Hs (length (rev R')) (length (rev R') + 1 + length (rev t))%nat); [lia| |].
          - rewrite Hv. simpl. rewrite <- app_assoc. rewrite nth_error_app2 by lia. now rewrite Nat.sub_diag.
          - rewrite Hv, HB2. simpl. rewrite <- !app_assoc. rewrite nth_error_app2 by lia. simpl.
            replace (length (rev R') + 1 + length (rev t) - length (rev R'))%nat with (S (length (rev t))) by lia. simpl.
            rewrite nth_error_app2 by lia. now rewrite Nat.sub_diag. }
        unfold num_le in Q. destruct (is_nan y); [discriminate|]. simpl in Q. unfold fle in Q. destruct x; auto. }
    intros v Hin. simpl in Hin. apply in_app_or in Hin as [Hin|[<-|[]]]; [|auto].
    apply In_nth_error in Hin as (k & Hk).
    assert (Q : num_le v x = true).
    { apply (Hs k (length (rev R'))); [apply nth_error_Some_lt in Hk; lia| |].
      - rewrite Hv. simpl. rewrite <- app_assoc. rewrite nth_error_app1; auto. eapply nth_error_Some_lt; eauto.
      - rewrite Hv. simpl. rewrite <- app_assoc. rewrite nth_error_app2 by lia. now rewrite Nat.sub_diag. }
    unfold num_le in Q. rewrite Nx in Q. simpl in Q. unfold p2 in Px. unfold fle in Q. destruct v, x; simpl in *; auto; discriminate. }
  split; [|split].
  - intros v Hin. apply Q1 in Hin. unfold p3 in Hin. destruct v; auto; discriminate.
  - intros v Hin.
    assert (Hin' : In v (rev R)) by (rewrite <- (firstn_skipn neg); apply in_or_app; now right).
    destruct (NoNaN v Hin') as [A1 A2].
    destruct (skipn neg (rev R)) as [|w s] eqn:Es; [destruct Hin|].
    assert (Pw := Q2 w s eq_refl). unfold p3 in Pw.
    assert (Hw : In w (rev R)) by (rewrite <- (firstn_skipn neg), Es; apply in_or_app; right; now left).
    destruct (NoNaN w Hw) as [W1 W2].
    destruct v; auto; try discriminate.
    (* v = -inf: cannot come at or after w *)
    destruct Hin as [->|Hin]; [discriminate|].
    apply In_nth_error in Hin as (k & Hk).
    assert (Q : num_le w NInf = true).
    { apply (Hs neg (neg + S k)%nat); [lia| |].
      - rewrite Hv. rewrite nth_error_app1 by (rewrite <- (firstn_skipn neg (rev R)), Es, app_length, firstn_length; simpl; lia).
        rewrite <- (firstn_skipn neg (rev R)), Es. rewrite nth_error_app2 by (rewrite firstn_length; lia).
        rewrite firstn_length. replace (neg - Nat.min neg (length (rev R)))%nat with 0%nat by lia. reflexivity.
      - assert (Hk' := nth_error_Some_lt _ _ _ Hk).
        rewrite Hv. rewrite nth_error_app1 by (rewrite <- (firstn_skipn neg (rev R)), Es, app_length, firstn_length; simpl; lia).
        rewrite <- (firstn_skipn neg (rev R)), Es. rewrite nth_error_app2 by (rewrite firstn_length; lia).
        rewrite firstn_length. replace (neg + S k - Nat.min neg (length (rev R)))%nat with (S k) by lia. exact Hk. }
    unfold num_le in Q. simpl in Q. unfold fle in Q. destruct w; simpl in *; try discriminate.
  - intros v Hin. apply in_app_or in Hin as [Hin|Hin]; apply in_rev in Hin.
    + apply P1 in Hin. unfold p2 in Hin. destruct v; auto; discriminate.
    + apply N1 in Hin. unfold p1 in Hin. rewrite feq_refl_nan in Hin. destruct v; auto; discriminate.
Qed.

Lemma rows_combine vals edges ix rs : rows vals edges ix rs -> map fst (combine ix rs) = ix /\
  forall i r, In (i, r) (combine ix rs) -> row_ok vals edges i r.
Proof.
  induction 1 as [|i r ix rs H R [IH1 IH2]]; simpl; [split; auto; tauto|].
  split; [now f_equal|]. intros j s [E|Hin]; [inversion E; subst; auto|auto].
Qed.

Lemma combine_map_const (l : list Z) (x : Z) : map (fun i => (i, x)) l = combine l (repeat x (length l)).
Proof. induction l; simpl; auto. now rewrite IHl. Qed.

Lemma make_bins_sorted vals edges sidx nan pos neg out :
  length out = length vals -> Permutation sidx (map Z.of_nat (seq 0 (length vals))) -> sorted_by_index vals sidx ->
  NanInfCount (map (value_at vals) sidx) = (nan, pos, neg) ->
  strictly_ascending edges -> (2 <= length edges)%nat ->
  (forall z el, In (Fin z) vals -> nth_error edges (length edges - 1) = Some el -> z <= el) ->
  exists out', MakeBinsSorted vals edges sidx nan pos neg out = Some out' /\ length out' = length vals /\
    forall i v, nth_error vals i = Some v -> exists r, nth_error out' i = Some r /\ sorted_bin edges v r.
Proof.
  intros L P Hs Ec Ha H2 Hmax.
  destruct (nth_error_lt edges 0) as (e0 & E0); [lia|].
  destruct (nth_error_lt edges (length edges - 1)) as (el & El); [lia|].
  assert (Hin : forall i, In i sidx -> 0 <= i < Z.of_nat (length vals)).
  { intros i Hi. apply (Permutation_in _ P) in Hi. apply in_map_iff in Hi as (k & <- & Hk). apply in_seq in Hk. lia. }
  assert (Hval : forall i, In i sidx -> zrd vals i = Some (value_at vals i)).
  { intros i Hi. apply Hin in Hi. unfold value_at. destruct (zrd_in vals i Hi) as (x & ->). reflexivity. }
  destruct (nan_inf_count (map (value_at vals) sidx) nan pos neg) as (A & M & B & Ev & LA & LB & FA & FM & FB); auto.
  { intros i j a b Hij Ea Eb. rewrite nth_error_map in Ea, Eb.
    destruct (nth_error sidx i) eqn:Ei; [|discriminate]. destruct (nth_error sidx j) eqn:Ej; [|discriminate].
    simpl in *. inversion Ea; inversion Eb; subst. eapply Hs; eauto. }
  (* split the index accordingly *)
  assert (Split : exists iA iM iB, sidx = iA ++ iM ++ iB /\ map (value_at vals) iA = A /\ map (value_at vals) iM = M /\ map (value_at vals) iB = B).
  { clear -Ev. apply map_eq_app in Ev as (iA & r & -> & EA & Er). apply map_eq_app in Er as (iM & iB & -> & EM & EB). exists iA, iM, iB. auto. }
  destruct Split as (iA & iM & iB & -> & EA & EM & EB).
  assert (lA : length iA = neg) by (rewrite <- LA, <- EA; now rewrite map_length).
  assert (lB : length iB = (nan + pos)%nat) by (rewrite <- LB, <- EB; now rewrite map_length).
  unfold MakeBinsSorted.
  replace (length (iA ++ iM ++ iB) - (nan + pos))%nat with (length (iA ++ iM)) by (rewrite !app_length; lia).
  assert (S1 : firstn (length (iA ++ iM)) (iA ++ iM ++ iB) = iA ++ iM).
  { rewrite app_assoc, firstn_app, Nat.sub_diag, firstn_all. cbn [firstn]. apply app_nil_r. }
  assert (S2 : skipn (length (iA ++ iM)) (iA ++ iM ++ iB) = iB).
  { rewrite app_assoc, skipn_app, Nat.sub_diag, skipn_all. reflexivity. }
  assert (S3 : firstn neg (iA ++ iM ++ iB) = iA).
  { rewrite <- lA, firstn_app, Nat.sub_diag, firstn_all. cbn [firstn]. apply app_nil_r. }
  assert (S4 : skipn neg (iA ++ iM) = iM).
  { rewrite <- lA, skipn_app, Nat.sub_diag, skipn_all. reflexivity. }
  rewrite S1, S2, S3, S4.
  set (wA := map (fun i => (i, 0)) iA). set (wB := map (fun i => (i, 0)) (rev iB)).
  assert (BndA : forall i x, In (i, x) wA -> 0 <= i < Z.of_nat (length out)).
  { intros i x H. unfold wA in H. apply in_map_iff in H as (k & Q & Hk). inversion Q; subst. rewrite L. apply Hin. apply in_or_app; now left. }
  destruct (writes_total wA out BndA) as (o1 & W1 & Lo1). rewrite W1.
  assert (BndB : forall i x, In (i, x) wB -> 0 <= i < Z.of_nat (length o1)).
  { intros i x H. unfold wB in H. apply in_map_iff in H as (k & Q & Hk). inversion Q; subst. rewrite Lo1, L. apply Hin. apply in_rev in Hk. apply in_or_app; right. apply in_or_app; now right. }
  destruct (writes_total wB o1 BndB) as (o2 & W2 & Lo2). rewrite W2.
  rewrite zrd_some by lia. change (Z.to_nat 0) with 0%nat. rewrite E0.
  assert (FinM : forall i, In i iM -> exists z, finite_in vals i z).
  { intros i Hi. assert (Q : is_finite (value_at vals i) = true) by (apply FM; rewrite <- EM; now apply in_map).
    assert (V := Hval i ltac:(apply in_or_app; right; apply in_or_app; now left)). unfold finite_in. rewrite V.
    destruct (value_at vals i); try discriminate. eauto. }
  destruct (mbs_below_spec vals edges e0 E0 Ha iM o2) as (dn & rest & rs & EiM & R1 & Hrest & EB1); auto.
  { intros i Hi. rewrite Lo2, Lo1, L. apply Hin. apply in_or_app; right. apply in_or_app; now left. }
  rewrite EB1.
  assert (BndD : forall i x, In (i, x) (combine dn rs) -> 0 <= i < Z.of_nat (length o2)).
  { intros i x H. apply in_combine_l in H. rewrite Lo2, Lo1, L. apply Hin. apply in_or_app; right. apply in_or_app; left. rewrite EiM. apply in_or_app; now left. }
  destruct (writes_total _ _ BndD) as (o3 & W3 & Lo3). rewrite W3.
  (* the rest *)
  assert (Rest : exists rs2, rows vals edges rest rs2 /\
     match rest with [] => Some o3 | index :: _ => match zrd vals index with None => None | Some v =>
       if feq v (Fin e0) && (1 <? Z.of_nat (length edges)) then match zrd edges 1 with Some e1 => mbs_mid vals edges 1 (Fin e1) rest o3 | None => None end
       else mbs_mid vals edges 0 (Fin e0) rest o3 end end = writes (combine rest rs2) o3).
  { destruct rest as [|i rest'] eqn:Er; [exists []; split; [constructor|reflexivity]|]. rewrite <- Er in *.
    assert (SubM : forall j, In j rest -> In j iM) by (intros j Hj; rewrite EiM; apply in_or_app; now right).
    assert (SortR : forall a b x y, (a < b)%nat -> nth_error rest a = Some x -> nth_error rest b = Some y -> num_le (value_at vals x) (value_at vals y) = true).
    { intros a b x y Hab Hx Hy. apply (Hs (length iA + length dn + a)%nat (length iA + length dn + b)%nat); [lia| |].
      - rewrite EiM. rewrite nth_error_app2 by lia. rewrite <- app_assoc. rewrite nth_error_app2 by lia. rewrite nth_error_app1.
        + rewrite <- Hx. f_equal. lia.
        + apply nth_error_Some_lt in Hx. lia.
      - rewrite EiM. rewrite nth_error_app2 by lia. rewrite <- app_assoc. rewrite nth_error_app2 by lia. rewrite nth_error_app1.
        + rewrite <- Hy. f_equal. lia.
        + apply nth_error_Some_lt in Hy. lia. }
    assert (iFirst : nth_error rest 0 = Some i) by (now rewrite Er).
    destruct (FinM i) as (z & Fz). { apply SubM. rewrite Er. now left. }
    assert (Hz0 : e0 <= z) by (eapply Hrest; eauto).
    assert (All : forall j y, In j rest -> finite_in vals j y -> z <= y).
    { intros j y Hj Fy. apply In_nth_error in Hj as (k & Hk). destruct k as [|k].
      - rewrite iFirst in Hk. inversion Hk; subst. unfold finite_in in *. assert (y = z) by congruence. lia.
      - assert (Q := SortR 0%nat (S k) i j ltac:(lia) iFirst Hk). unfold value_at in Q. rewrite Fz, Fy in Q. unfold num_le in Q. rewrite fle_fin in Q. simpl in Q. lia. }
    assert (Bnd : forall j, In j rest -> 0 <= j < Z.of_nat (length o3)).
    { intros j Hj. rewrite Lo3, Lo2, Lo1, L. apply Hin. apply in_or_app; right. apply in_or_app; left. auto. }
    assert (Fr : forall j, In j rest -> exists y, finite_in vals j y /\ e0 <= y <= el).
    { intros j Hj. destruct (FinM j (SubM j Hj)) as (y & Fy). exists y. split; auto. specialize (All j y Hj Fy). split; [lia|].
      eapply Hmax; eauto. apply zrd_inv in Fy as [_ Fy]. eapply nth_error_In; eauto. }
    rewrite Fz. simpl feq.
    destruct (Z.eqb_spec z e0) as [Ez|Ez].
    - destruct (Z.ltb_spec 1 (Z.of_nat (length edges))); [|lia]. cbn [andb].
      destruct (zrd_in edges 1) as (e1 & E1); [lia|]. rewrite E1.
      apply (mbs_mid_spec vals edges e0 el E0 El) with (e := e1); auto; try lia.
      intros _ j y Hj Fy. exists e0. split; [exact E0|]. specialize (All j y Hj Fy). destruct (Z.eq_dec y e0); [now right|left; lia].
    - cbn [andb]. apply (mbs_mid_spec vals edges e0 el E0 El) with (e := e0); auto; try lia.
      intros _ j y Hj Fy. specialize (All j y Hj Fy). lia. }
  destruct Rest as (rs2 & R2 & ER). rewrite ER.
  (* assemble *)
  set (ws := wA ++ wB ++ combine dn rs ++ combine rest rs2).
  assert (WS : writes (combine rest rs2) o3 = writes ws out).
  { unfold ws. rewrite writes_app, W1, writes_app, W2, writes_app, W3. reflexivity. }
  rewrite WS.
  destruct (rows_combine _ _ _ _ R1) as [F1 G1]. destruct (rows_combine _ _ _ _ R2) as [F2 G2].
  destruct (writes_each ws out (length vals)) as (o & Eo & Lo & Ho); auto.
  { unfold ws. rewrite !map_app, F1, F2. unfold wA, wB. rewrite !map_map. simpl. rewrite !map_id.
    eapply Permutation_trans; [|exact P]. apply Permutation_app_head. rewrite EiM.
    eapply Permutation_trans; [apply Permutation_app_comm|]. apply Permutation_app_head. apply Permutation_sym, Permutation_rev. }
  exists o. split; auto. split; auto. intros i v Hv.
  assert (Vi : value_at vals (Z.of_nat i) = v) by (unfold value_at; rewrite zrd_some by lia; now rewrite Nat2Z.id, Hv).
  assert (Hi : In (Z.of_nat i) (iA ++ iM ++ iB)).
  { apply (Permutation_in _ (Permutation_sym P)). apply in_map, in_seq. apply nth_error_Some_lt in Hv. lia. }
  assert (Row : exists r, In (Z.of_nat i, r) ws /\ sorted_bin edges v r).
  { apply in_app_or in Hi as [Hi|Hi]; [|apply in_app_or in Hi as [Hi|Hi]].
    - exists 0. split; [apply in_or_app; left; unfold wA; apply in_map_iff; eauto|].
      unfold sorted_bin. rewrite <- Vi. rewrite FA; auto. rewrite <- EA. now apply in_map.
    - rewrite EiM in Hi. apply in_app_or in Hi as [Hi|Hi].
      + rewrite <- F1 in Hi. apply in_map_iff in Hi as ([j r] & Q & Hj). simpl in Q. subst j. exists r. split.
        * unfold ws. apply in_or_app; right. apply in_or_app; right. apply in_or_app; now left.
        * rewrite <- Vi. now apply G1.
      + rewrite <- F2 in Hi. apply in_map_iff in Hi as ([j r] & Q & Hj). simpl in Q. subst j. exists r. split.
        * unfold ws. apply in_or_app; right. apply in_or_app; right. apply in_or_app; now right.
        * rewrite <- Vi. now apply G2.
    - exists 0. split; [apply in_or_app; right; apply in_or_app; left; unfold wB; apply in_map_iff; exists (Z.of_nat i); split; auto; now apply in_rev in Hi|].
      unfold sorted_bin. rewrite <- Vi. rewrite FB; auto. rewrite <- EB. now apply in_map. }
  destruct Row as (r & Hr & Sr). exists r. split; auto.
Qed.

(** ** Counterexamples *)
Definition half_up (z : Z) : Z := 2 * z.           (* an integer value in units of 1/2 *)
Definition trunc_half (e : Z) : Z := Z.quot e 2.   (* C++ conversion of a floating point edge to an integer *)

Lemma search_right_trunc :
  exists vals edges, ascending edges /\
    SearchSorted trunc_half half_up true in_order false CHUNK vals edges 0 <> Some (map (fun v => count_le edges (conv half_up v)) vals).
Proof.
  exists [Fin 1], [1; 3]. split; [|vm_compute; congruence].
  intros [|[|i]] [|[|j]] x y H Hx Hy; simpl in *; try lia; try (destruct i; discriminate); try (destruct j; discriminate); congruence || (inversion Hx; inversion Hy; lia).
Qed.

Lemma search_left_trunc :
  exists vals edges, ascending edges /\
    SearchSorted trunc_half half_up false in_order false CHUNK vals edges 0 <> Some (map (fun v => count_lt edges (conv half_up v)) vals).
Proof.
  exists [Fin (-1)], [-3; 3]. split; [|vm_compute; congruence].
  intros [|[|i]] [|[|j]] x y H Hx Hy; simpl in *; try lia; try (destruct i; discriminate); try (destruct j; discriminate); congruence || (inversion Hx; inversion Hy; lia).
Qed.

Lemma search_empty : forall castT castB right v d, SearchSorted castT castB right in_order false CHUNK [v] [] d = None.
Proof. intros. destruct right; reflexivity. Qed.

Lemma search_overflow : exists edges v, ascending edges /\ Z.of_nat (length edges) = 2000000000 /\
  search_right (fun z => z) (fun z => z) edges v = None.
Proof.
  assert (exists N, Z.of_nat N = 2000000000) as [N HN] by (exists (Z.to_nat 2000000000); now rewrite Z2Nat.id).
  exists (map Z.of_nat (seq 0 N)), (Fin 1999999998).
  assert (Nth : forall i, nth_error (map Z.of_nat (seq 0 N)) i = if (i <? N)%nat then Some (Z.of_nat i) else None).
  { intros i. rewrite nth_error_map, nth_error_seq. destruct (i <? N)%nat; reflexivity. }
  assert (Rd : forall i, 0 <= i < 2000000000 -> zrd (map Z.of_nat (seq 0 N)) i = Some i).
  { intros i Hi. rewrite zrd_some by lia. rewrite Nth. destruct (Nat.ltb_spec (Z.to_nat i) N); [f_equal; lia|lia]. }
  split; [|split].
  - intros i j x y Hij. rewrite !Nth. destruct (i <? N)%nat, (j <? N)%nat; try discriminate. intros H1 H2; inversion H1; inversion H2. lia.
  - now rewrite map_length, seq_length.
  - unfold search_right. rewrite map_length, seq_length, HN.
    change (out_bits 2000000000) with 32. change (wrap 32 2000000000 - 1) with 1999999999.
    rewrite !Rd by lia. rewrite fle_fin, flt_fin_r.
    change ((0 <=? 1999999998) && (1999999998 <? 1999999999)) with true. cbv iota.
    destruct N as [|[|N']]; [lia|lia|].
    set (L := map Z.of_nat (seq 0 (S (S N')))) in *.
    unfold ss_loop. change (midpoint 32 0 1999999999) with (Some 999999999). cbv iota beta zeta.
    rewrite Rd by lia. cbn [conv]. rewrite fle_fin.
    change (999999999 <=? 1999999998) with true. change (1999999999 <? 999999999 + 1) with false. cbv iota.
    change (midpoint 32 (999999999 + 1) 1999999999) with (@None Z). reflexivity.
Qed.

Lemma cut_trunc_wrong :
  exists v edges, strictly_ascending edges /\ cut_one trunc_half half_up is_finite edges v = Some 1 /\ ~ in_bin edges (conv half_up v) 1.
Proof.
  exists (Fin 0), [1; 3]. split; [|split; [reflexivity|]].
  - intros [|[|i]] [|[|j]] x y H Hx Hy; simpl in *; try lia; try (destruct i; discriminate); try (destruct j; discriminate); congruence || (inversion Hx; inversion Hy; lia).
  - intros [(_ & lo & hi & E1 & E2 & C1 & C2)|(_ & e & E & C)]; simpl in *.
    + inversion E1; subst. discriminate.
    + inversion E; subst. discriminate.
Qed.

Lemma cut_trunc_oob : exists v edges, edges <> [] /\ cut_one trunc_half half_up is_finite edges v = None.
Proof. exists (Fin 0), [-1]. split; [discriminate|reflexivity]. Qed.

Lemma cut_string_threaded :
  exists buf isz n edges c, (0 < c)%nat /\ 0 < isz /\ Z.of_nat (length buf) = Z.of_nat n * isz /\ texts_ascending edges /\
    CutString in_order true c buf isz n edges 0 <> CutString in_order false c buf isz n edges 0 /\
    CutString in_order true c buf isz n edges 0 <> None.
Proof.
  exists [97; 98; 97; 98; 99; 100; 99; 100], 2, 4%nat, [[97; 97]; [98; 98]; [122; 122]], 2%nat.
  repeat split; try lia; try (vm_compute; congruence).
  intros [|[|[|i]]] [|[|[|j]]] x y H Hx Hy; simpl in *; try lia; try (destruct i; discriminate); try (destruct j; discriminate); inversion Hx; inversion Hy; reflexivity.
Qed.

Lemma string_embedded_zero :
  exists a b, a <> b /\ length a <> length b /\ STRING_LT a b = false /\ STRING_LT b a = false /\ nth 2 b 0 <> 0.
Proof. exists [97], [97; 0; 98]. repeat split; vm_compute; congruence. Qed.

Lemma make_bins_sorted_oob :
  exists vals edges sidx nan pos neg, strictly_ascending edges /\ (2 <= length edges)%nat /\
    Permutation sidx (map Z.of_nat (seq 0 (length vals))) /\ sorted_by_index vals sidx /\
    NanInfCount (map (value_at vals) sidx) = (nan, pos, neg) /\
    forall out, MakeBinsSorted vals edges sidx nan pos neg out = None.
Proof.
  exists [Fin 5], [0; 3], [0], 0%nat, 0%nat, 0%nat. repeat split; try (simpl; lia).
  - intros [|[|i]] [|[|j]] x y H Hx Hy; simpl in *; try lia; try (destruct i; discriminate); try (destruct j; discriminate); congruence || (inversion Hx; inversion Hy; lia).
  - apply Permutation_refl.
  - intros [|i] [|j] x y H Hx Hy; simpl in *; try lia; try (destruct i; discriminate); try (destruct j; discriminate).
Qed.
