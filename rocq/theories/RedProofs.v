(** Vector loops combine every element once. *)
From Verif Require Import Base RedModel RedSpec.
From Coq Require Import Permutation.

Section agg.
Context {D : Type} (isop : (D -> D -> D) -> Prop) (e : option D).
(** [r] was made from the elements of [l], in some order, with operations of [isop] *)
Inductive agg : list D -> D -> Prop :=
| agg0 z : e = Some z -> agg [] z
| agg1 x : agg [x] x
| agg2 op l1 l2 l a b : isop op -> agg l1 a -> agg l2 b -> Permutation l (l1 ++ l2) -> agg l (op a b).

Lemma agg_perm l l' r : Permutation l l' -> agg l r -> agg l' r.
Proof.
  intros P H. revert l' P. induction H; intros l' P.
  - apply Permutation_nil in P. subst. now constructor.
  - apply Permutation_length_1_inv in P. subst. constructor.
  - eapply agg2; eauto. rewrite <- P. assumption.
Qed.

Lemma agg_fold op l : isop op -> forall k a, agg k a -> agg (k ++ l) (fold_left op l a).
Proof.
  intros O. induction l as [|x l IH]; intros k a H; cbn [fold_left].
  - now rewrite app_nil_r.
  - replace (k ++ x :: l) with ((k ++ [x]) ++ l) by now rewrite <- app_assoc.
    apply IH. eapply agg2; [exact O|exact H|apply agg1|reflexivity].
Qed.

Definition laneagg (l : list D) (acc : list D) : Prop := exists G, Forall2 agg G acc /\ Permutation (concat G) l.

Lemma laneagg_row l : laneagg l l.
Proof.
  exists (map (fun x => [x]) l). split.
  - induction l; cbn; constructor; [constructor|assumption].
  - induction l as [|x l IH]; cbn; [constructor|]. now constructor.
Qed.
Lemma laneagg_perm l l' a : Permutation l l' -> laneagg l a -> laneagg l' a.
Proof. intros P (G & F & Q). exists G. split; [assumption|]. now rewrite Q. Qed.
Lemma laneagg_zero z n : e = Some z -> laneagg [] (repeat z n).
Proof.
  intros E. exists (repeat [] n). split.
  - induction n; cbn; constructor; [now constructor|assumption].
  - induction n; cbn; [constructor|assumption].
Qed.
Lemma laneagg_zip op l1 l2 a b : isop op -> length a = length b -> laneagg l1 a -> laneagg l2 b -> laneagg (l1 ++ l2) (zipw op a b).
Proof.
  intros O L (G & F & P) (G' & F' & P').
  exists (map (fun p => fst p ++ snd p) (combine G G')). split.
  - clear P P'. revert b G' L F'. induction F; intros [|y' b] G' L F'; cbn in L; try discriminate; inversion F'; subst; cbn; constructor.
    + cbn. eapply agg2; [exact O|eassumption|eassumption|reflexivity].
    + apply IHF; [lia|assumption].
  - rewrite <- P, <- P'. clear P P'. revert b G' L F'. induction F; intros [|y' b] G' L F'; cbn in L; try discriminate; inversion F'; subst; cbn; [constructor|].
    rewrite (IHF b l0 ltac:(lia) H4). rewrite <- !app_assoc. apply Permutation_app_head.
    rewrite !app_assoc. apply Permutation_app_tail, Permutation_app_comm.
Qed.
Lemma zipw_length {X} (op : X -> X -> X) a b : length a = length b -> length (zipw op a b) = length a.
Proof. intros E. unfold zipw. rewrite map_length, combine_length. lia. Qed.

Lemma laneagg_fold op rs : isop op -> forall c l a, length a = c -> Forall (fun r => length r = c) rs -> laneagg l a ->
  laneagg (l ++ concat rs) (fold_left (zipw op) rs a) /\ length (fold_left (zipw op) rs a) = c.
Proof.
  intros O. induction rs as [|r rs IH]; intros c l a L F H; cbn.
  - now rewrite app_nil_r.
  - inversion F; subst. rewrite app_assoc. apply IH; [rewrite zipw_length; lia|assumption|].
    apply laneagg_zip; try assumption; [lia|apply laneagg_row].
Qed.

Lemma laneagg_app l a b : laneagg l (a ++ b) -> exists l1 l2, Permutation l (l1 ++ l2) /\ laneagg l1 a /\ laneagg l2 b.
Proof.
  intros (G & F & P). apply Forall2_app_inv_r in F as (G1 & G2 & F1 & F2 & ->).
  exists (concat G1), (concat G2). rewrite concat_app in P. split; [now symmetry|].
  split; [exists G1|exists G2]; now split.
Qed.

Lemma reg_length w k (acc : list D) : length acc = (8 * w)%nat -> (k < 8)%nat -> length (reg w k acc) = w.
Proof. intros L K. unfold reg. rewrite firstn_length, skipn_length, L. nia. Qed.

Lemma skipn_add {X} n : forall m (l : list X), skipn (n + m) l = skipn m (skipn n l).
Proof. induction n; intros m [|x l]; cbn; rewrite ?skipn_nil; auto. Qed.
Lemma reg_step w k (acc : list D) : skipn (k * w) acc = reg w k acc ++ skipn (S k * w) acc.
Proof.
  unfold reg. replace (S k * w)%nat with (k * w + w)%nat by lia. rewrite skipn_add. now rewrite firstn_skipn.
Qed.

Lemma wind_ok op w l acc : isop op -> length acc = (8 * w)%nat -> laneagg l acc ->
  laneagg l (wind op w acc) /\ length (wind op w acc) = w.
Proof.
  intros O L H.
  pose proof (fun k => reg_length w k acc L) as RL.
  assert (E : acc = reg w 0 acc ++ reg w 1 acc ++ reg w 2 acc ++ reg w 3 acc ++ reg w 4 acc ++ reg w 5 acc ++ reg w 6 acc ++ reg w 7 acc).
  { assert (Z0 : acc = skipn (0 * w) acc) by reflexivity. rewrite Z0 at 1.
    do 8 rewrite reg_step. replace (skipn (8 * w) acc) with (@nil D); [now rewrite app_nil_r|].
    symmetry. apply skipn_all2. lia. }
  rewrite E in H.
  apply laneagg_app in H as (l0 & k0 & P0 & H0 & H).
  apply laneagg_app in H as (l1 & k1 & P1 & H1 & H).
  apply laneagg_app in H as (l2 & k2 & P2 & H2 & H).
  apply laneagg_app in H as (l3 & k3 & P3 & H3 & H).
  apply laneagg_app in H as (l4 & k4 & P4 & H4 & H).
  apply laneagg_app in H as (l5 & k5 & P5 & H5 & H).
  apply laneagg_app in H as (l6 & l7 & P6 & H6 & H7).
  unfold wind.
  assert (LL : forall k, (k < 8)%nat -> length (reg w k acc) = w) by exact RL.
  assert (Z2 : forall i j, (i < 8)%nat -> (j < 8)%nat -> length (zipw op (reg w i acc) (reg w j acc)) = w).
  { intros i j I J. rewrite zipw_length; rewrite !LL; lia. }
  assert (Z4 : forall i j m n, (i < 8)%nat -> (j < 8)%nat -> (m < 8)%nat -> (n < 8)%nat ->
     length (zipw op (zipw op (reg w i acc) (reg w j acc)) (zipw op (reg w m acc) (reg w n acc))) = w).
  { intros i j m n I J M N. rewrite zipw_length; rewrite !Z2; lia. }
  split.
  - apply laneagg_perm with (((l0 ++ l1) ++ (l2 ++ l3)) ++ ((l4 ++ l5) ++ (l6 ++ l7))).
    { symmetry. rewrite P0, P1, P2, P3, P4, P5, P6. rewrite <- !app_assoc. reflexivity. }
    repeat (apply laneagg_zip; [exact O| |..]); try assumption; rewrite ?Z4, ?Z2, ?LL; lia.
  - rewrite zipw_length; rewrite !Z4; lia.
Qed.

Lemma horiz_ok op d l t : isop op -> t <> [] -> laneagg l t -> agg l (horiz op d t).
Proof.
  intros O N (G & F & P). destruct F as [|g x G t A F]; [congruence|]. cbn [horiz].
  apply agg_perm with (concat (g :: G)); [assumption|]. cbn [concat]. clear N P.
  revert g x A. induction F as [|g' x' G t A' F IH]; intros g x A; cbn [fold_left concat]; [now rewrite app_nil_r|].
  rewrite app_assoc. apply IH. eapply agg2; [exact O|exact A|exact A'|reflexivity].
Qed.
End agg.

Lemma rows_app {X} c (l : list X) : (0 < c)%nat -> concat (rows c l) ++ rest c l = l.
Proof.
  intros C. unfold rows, rest.
  assert (H : forall n, concat (map (fun i => firstn c (skipn (i * c) l)) (seq 0 n)) ++ skipn (n * c) l = l).
  { induction n; [reflexivity|]. rewrite seq_S, map_app, concat_app. cbn [map concat]. rewrite app_nil_r, <- app_assoc.
    replace (S n * c)%nat with (n * c + c)%nat by lia. rewrite skipn_add. cbn [plus]. rewrite (firstn_skipn c). exact IHn. }
  apply H.
Qed.
Lemma rows_len {X} c (l : list X) : (0 < c)%nat -> Forall (fun r => length r = c) (rows c l).
Proof.
  intros C. unfold rows. apply Forall_forall. intros r I. apply in_map_iff in I as (i & <- & I). apply in_seq in I.
  rewrite firstn_length, skipn_length. pose proof (Nat.mul_div_le (length l) c ltac:(lia)). nia.
Qed.
Lemma rows_none {X} c (l : list X) : (length l < c)%nat -> rest c l = l.
Proof. intros H. unfold rest. now rewrite Nat.div_small. Qed.

(** the 32-lane sum *)
Lemma vec_sum_agg {V} (A : dops) (f : V -> car A) l : agg (fun op => op = plus A) (Some (zero A)) (map f l) (vec_sum A f l).
Proof.
  unfold vec_sum. cbv zeta.
  destruct (Nat.leb_spec 32 (length l)) as [L|L].
  - apply agg_perm with (concat (rows 32 (map f l)) ++ rest 32 (map f l)); [rewrite rows_app; [reflexivity|lia]|].
    apply agg_fold; [reflexivity|].
    destruct (laneagg_fold (fun op => op = plus A) (Some (zero A)) (plus A) (rows 32 (map f l)) eq_refl 32 [] (repeat (zero A) 32)) as [H HL].
    + apply repeat_length.
    + apply rows_len; lia.
    + apply laneagg_zero; reflexivity.
    + destruct (wind_ok (fun op => op = plus A) (Some (zero A)) (plus A) 4 _ _ eq_refl HL H) as [W WL].
      apply horiz_ok; [reflexivity| |assumption]. intros E. rewrite E in WL. discriminate.
  - rewrite (rows_none 32 (map f l)) by now rewrite map_length.
    apply (agg_fold (fun op => op = plus A) (Some (zero A)) (plus A) (map f l) eq_refl []). now constructor.
Qed.
(** the 4-lane sum of ReduceVarF32 *)
Lemma var_sum_agg {V} (A : dops) (f : V -> car A) l s : exists r, agg (fun op => op = plus A) (Some (zero A)) (map f l) r /\
  VarF32 A f l s = SG (lenOut s + Z.of_nat (length l)) (plus A (resultOut s) r) (resultInt s).
Proof.
  unfold VarF32. cbv zeta. eexists; split; [|reflexivity].
  destruct (Nat.leb_spec 4 (length l)) as [L|L].
  - apply agg_perm with (concat (rows 4 (map f l)) ++ rest 4 (map f l)); [rewrite rows_app; [reflexivity|lia]|].
    apply agg_fold; [reflexivity|].
    destruct (laneagg_fold (fun op => op = plus A) (Some (zero A)) (plus A) (rows 4 (map f l)) eq_refl 4 [] (repeat (zero A) 4)) as [H HL].
    + apply repeat_length.
    + apply rows_len; lia.
    + apply laneagg_zero; reflexivity.
    + apply horiz_ok; [reflexivity| |assumption]. intros E. rewrite E in HL. discriminate.
  - rewrite (rows_none 4 (map f l)) by now rewrite map_length.
    apply (agg_fold (fun op => op = plus A) (Some (zero A)) (plus A) (map f l) eq_refl []). now constructor.
Qed.
(** the vector loop of min and max *)
Lemma vec_mm_agg (M : vops) max vop w x l : (0 < w)%nat -> In x l ->
  exists k, (forall y, In y k <-> In y l) /\ agg (fun op => op = vop \/ op = rt_op M max) None k (vec_mm M max vop w x l).
Proof.
  intros W I. unfold vec_mm. cbv zeta. set (ops := fun op => op = vop \/ op = rt_op M max).
  assert (OV : ops vop) by now left. assert (OR : ops (rt_op M max)) by now right.
  destruct (Nat.leb_spec (8 * w) (length l)) as [L|L].
  - exists l. split; [tauto|].
    apply agg_perm with (concat (rows (8 * w) l) ++ rest (8 * w) l); [rewrite rows_app; [reflexivity|lia]|].
    apply agg_fold; [exact OR|].
    pose proof (rows_len (8 * w) l ltac:(lia)) as RL.
    destruct (rows (8 * w) l) as [|r rs] eqn:E.
    { exfalso. apply (f_equal (@length _)) in E. unfold rows in E. rewrite map_length, seq_length in E. cbn [length] in E.
      apply Nat.div_small_iff in E; lia. }
    inversion RL as [|? ? R1 R2]; subst. cbn [concat].
    destruct (laneagg_fold ops None vop rs OV (8 * w) r r R1 R2 (laneagg_row _ _ r)) as [H HL].
    destruct (wind_ok ops None vop w _ _ OV HL H) as [H2 H2L].
    apply horiz_ok; [exact OR| |exact H2]. intros E2. rewrite E2 in H2L. cbn in H2L. lia.
  - exists (x :: l). split; [intros y; cbn; split; [intros [<- | H]; assumption|auto]|].
    rewrite (rows_none _ _ L). apply (agg_fold ops None (rt_op M max) l OR [x]). constructor.
Qed.
