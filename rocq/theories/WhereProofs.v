From Verif Require Import Base Mem MemLemmas OutModel WhereModel WhereSpec.
Local Open Scope Z_scope.

Lemma bytes_len m a n : length (bytes_at m a n) = Z.to_nat n.
Proof. unfold bytes_at. now rewrite map_length, seq_length. Qed.
Lemma firstn_full (l : list Z) n k : length l = n -> firstn n (l ++ repeat 0 k) = l.
Proof. intros <-. rewrite firstn_app, firstn_all, Nat.sub_diag. cbn. now rewrite app_nil_r. Qed.
Lemma firstn_repeat (x : Z) : forall n k, (n <= k)%nat -> firstn n (repeat x k) = repeat x n.
Proof. induction n as [|n IH]; intros [|k] L; cbn; try reflexivity; [lia|]. now rewrite IH by lia. Qed.

Lemma prepared m str size o i : 0 <= size -> sized str size o -> exists s, prepare str size o = Some s /\ from m size s i = value_at m size o i
  /\ (forall v, o = Ram v -> s = SRam (base v)) /\ (forall l, o = Reg l -> exists l', s = SReg l').
Proof.
  intros P S. destruct o as [l|v]; cbn [prepare sized value_at] in *.
  - unfold scalar_copy. destruct str.
    + replace (Z.of_nat (length l) <=? size) with true by (symmetry; now apply Z.leb_le). eexists. split; [reflexivity|]. cbn [from].
      split; [|split; [discriminate|eauto]]. rewrite firstn_app, firstn_all2 by lia. f_equal. rewrite firstn_repeat by lia. f_equal. lia.
    + eexists. split; [reflexivity|]. split; [|split; [discriminate|eauto]]. cbn [from]. rewrite firstn_app. replace (Z.to_nat size - length l)%nat with 0%nat by lia. cbn. now rewrite app_nil_r.
  - eexists. split; [reflexivity|]. cbn [from]. split; [|split; [intros w E; now injection E as <-|discriminate]]. rewrite S, firstn_full by apply bytes_len. reflexivity.
Qed.

Lemma choose_ok m size c x y sx sy i : 0 <= size -> aligned size x y ->
  (forall v, x = Ram v -> sx = SRam (base v)) -> (forall l, x = Reg l -> exists l', sx = SReg l') ->
  (forall v, y = Ram v -> sy = SRam (base v)) -> (forall l, y = Reg l -> exists l', sy = SReg l') ->
  choose m size c sx sy i = if c =? 0 then from m size sy i else from m size sx i.
Proof.
  intros P A X1 X2 Y1 Y2. destruct x as [lx|vx]; [destruct (X2 lx eq_refl) as [l' ->]; reflexivity|]. rewrite (X1 vx eq_refl).
  destruct y as [ly|vy]; [destruct (Y2 ly eq_refl) as [l' ->]; reflexivity|]. rewrite (Y1 vy eq_refl). cbn [choose from].
  destruct (typed_size size) eqn:T; [|reflexivity]. assert (S0 : size <> 0) by (intros ->; discriminate T).
  cbn [aligned] in A. destruct A as [k K]. rewrite K, Z.quot_mul by assumption. destruct (c =? 0); f_equal; lia.
Qed.

Lemma where_ok m c x y str size : 0 <= size -> cstride c = 1 -> sized str size x -> sized str size y -> aligned size x y ->
  length_ok (clen c) x = true -> length_ok (clen c) y = true ->
  Where m c x y str size = WDone (map (chosen m c x y size) (seq 0 (clen c))).
Proof.
  intros P C Sx Sy A Lx Ly. unfold Where. rewrite Lx, Ly. cbn [andb].
  destruct (prepared m str size x 0 P Sx) as (sx & Ex & _ & X1 & X2). destruct (prepared m str size y 0 P Sy) as (sy & Ey & _ & Y1 & Y2). rewrite Ex, Ey.
  f_equal. apply map_ext. intros i. unfold chosen. rewrite C, Z.mul_1_l.
  destruct (prepared m str size x i P Sx) as (sx' & Ex' & Fx & _). destruct (prepared m str size y i P Sy) as (sy' & Ey' & Fy & _).
  rewrite Ex in Ex'. rewrite Ey in Ey'. injection Ex' as <-. injection Ey' as <-.
  rewrite (choose_ok m size _ x y sx sy i) by assumption. now rewrite Fx, Fy.
Qed.

Lemma length_goes n o : length_ok n o = true <-> goes_with n o.
Proof.
  destruct o as [l|v]; cbn; [tauto|]. split.
  - intros H. apply orb_true_iff in H as [H|H]; apply Nat.eqb_eq in H; auto.
  - intros [H|H]; apply orb_true_iff; [left|right]; now apply Nat.eqb_eq.
Qed.
Lemma where_refused m c x y str size : ~ (goes_with (clen c) x /\ goes_with (clen c) y) -> Where m c x y str size = WError.
Proof.
  intros H. unfold Where. destruct (length_ok (clen c) x && length_ok (clen c) y) eqn:L; [|reflexivity].
  apply andb_prop in L as [A B]. destruct H. split; now apply length_goes.
Qed.
