(** Proofs about GroupFromLexSort: from the runs of the index to the groups of all rows. *)
From Verif Require Import Base Mem SortModel SortSpec Sort7Proofs AllModel EaModel EaSpec Ea2Proofs LxModel LxSpec Lx3Proofs GlModel GlSpec.
Local Open Scope Z_scope.

Lemma countb_perm {X} (f : X -> bool) l r : Permutation l r -> countb f l = countb f r.
Proof. induction 1; cbn; lia. Qed.
Lemma countb_map {X Y} (g : X -> Y) f l : countb f (map g l) = countb (fun x => f (g x)) l.
Proof. induction l; cbn; congruence. Qed.
Lemma countb_const {X} (f : X -> bool) b l : (forall x, In x l -> f x = b) -> countb f l = if b then length l else 0%nat.
Proof. induction l as [|x l IH]; intros H; [destruct b; reflexivity|]. cbn [countb length]. rewrite (H x (or_introl eq_refl)), IH by (intros; apply H; now right). destruct b; reflexivity. Qed.

Lemma count_block (g : Z -> Z) blocks : forall (off : Z) q, (forall k b, nth_error blocks k = Some b -> forall j, In j b -> g j = Z.of_nat k + off) ->
  countb (fun j => Z.of_nat q + off =? g j) (concat blocks) = length (nth q blocks []).
Proof.
  induction blocks as [|b blocks IH]; intros off q H; [destruct q; reflexivity|]. cbn [concat]. rewrite countb_app.
  destruct q as [|q].
  - rewrite (countb_const _ true b), (countb_const _ false (concat blocks)); [cbn; lia| |].
    + intros j Hj. apply in_concat in Hj as (b' & Hb & Hj). apply In_nth_error in Hb as (k & Hk). rewrite (H (S k) b' Hk j Hj). apply Z.eqb_neq. lia.
    + intros j Hj. rewrite (H 0%nat b eq_refl j Hj). apply Z.eqb_refl.
  - rewrite (countb_const _ false b).
    + cbn [nth]. rewrite <- (IH (off + 1) q). * apply countb_ext. intros j _. f_equal. lia.
      * intros k b' Hk j Hj. rewrite (H (S k) b' Hk j Hj). lia.
    + intros j Hj. rewrite (H 0%nat b eq_refl j Hj). apply Z.eqb_neq. lia.
Qed.

Lemma zrd_some {X} (l : list X) x v : zrd l x = Some v -> 0 <= x /\ nth_error l (Z.to_nat x) = Some v.
Proof. unfold zrd. destruct (Z.leb_spec 0 x); [auto|discriminate]. Qed.

Lemma ordpairs_mid {X} (R : X -> X -> Prop) l x r y : ForallOrdPairs R (l ++ x :: r) -> In y r -> R x y.
Proof.
  induction l as [|z l IH]; cbn; intros H Hy; inversion H as [|? ? H1 H2]; subst; [|now apply IH]. rewrite Forall_forall in H1. auto.
Qed.
Lemma ordpairs_app {X} (R : X -> X -> Prop) l r : ForallOrdPairs R l -> ForallOrdPairs R r -> (forall x y, In x l -> In y r -> R x y) -> ForallOrdPairs R (l ++ r).
Proof.
  intros H Hr Hc. induction H as [|x l H1 H2 IH]; [exact Hr|]. cbn. constructor.
  - apply Forall_app. split; [exact H1|]. apply Forall_forall. intros y Hy. apply Hc; [now left|exact Hy].
  - apply IH. intros; apply Hc; [now right|assumption].
Qed.
Lemma ordpairs_nth {X} (R : X -> X -> Prop) l : (forall i j x y, (i < j)%nat -> nth_error l i = Some x -> nth_error l j = Some y -> R x y) -> ForallOrdPairs R l.
Proof.
  induction l as [|x l IH]; intros H; constructor.
  - apply Forall_forall. intros y Hy. apply In_nth_error in Hy as (j & Hj). apply (H 0%nat (S j)); auto; lia.
  - apply IH. intros i j a b Hij Ha Hb. apply (H (S i) (S j)); auto; lia.
Qed.

(** The runs of an index that lists all rows, rows of one group in ascending order, are the groups. *)
Lemma grouped_of {K} (val : Z -> K) (same : Z -> Z -> Prop) n index keys first cnt : 0 <= n -> grouping val 1 1 index keys first cnt ->
  Permutation index (map Z.of_nat (seq 0 (Z.to_nat n))) -> ForallOrdPairs (fun x y => val x = val y -> x < y) index ->
  length keys = Z.to_nat n -> length cnt = S (length first) -> nth_error cnt 0 = Some 0 ->
  (forall x y, 0 <= x < n -> 0 <= y < n -> (val x = val y <-> same x y)) -> grouped same n keys first cnt.
Proof.
  intros Hn G P OP LK LC C0 HS. pose proof (grouping_keys val 1 1 index keys first cnt G) as GK. destruct G as (blocks & E & LF & HB & _).
  assert (IN : forall x, 0 <= x < n <-> In x index).
  { intros x. split; intros H.
    - apply (Permutation_in _ (Permutation_sym P)). apply in_map_iff. exists (Z.to_nat x). split; [lia|]. apply in_seq. lia.
    - apply (Permutation_in _ P) in H. apply in_map_iff in H as (k & <- & Hk). apply in_seq in Hk. lia. }
  assert (IB : forall x, 0 <= x < n -> exists q b, nth_error blocks q = Some b /\ In x b).
  { intros x Hx. apply IN in Hx. rewrite E in Hx. apply in_concat in Hx as (b & Hb & Hx). apply In_nth_error in Hb as (q & Hq). eauto. }
  split; [exact LK|]. split; [exact LC|]. split; [exact C0|]. split; [|split].
  - intros x Hx. destruct (IB x Hx) as (q & b & Hq & Hb). destruct (HB q b Hq) as (i & r & Eb & _ & _ & HJ). exists q. split.
    + rewrite LF. apply nth_error_Some. congruence.
    + now apply HJ.
  - intros x y Hx Hy. rewrite GK by now apply IN. now apply HS.
  - intros q i Hf. assert (Hq : (q < length blocks)%nat) by (rewrite <- LF; apply nth_error_Some; congruence).
    destruct (nth_error blocks q) as [b|] eqn:Eq; [|apply nth_error_None in Eq; lia]. destruct (HB q b Eq) as (i' & r & Eb & Hf' & Hc & HJ).
    rewrite Hf in Hf'. injection Hf' as <-. assert (Ib : In i b) by (rewrite Eb; now left). destruct (HJ i Ib) as (_ & Hk).
    assert (Hi : 0 <= i < n). { apply IN. rewrite E. apply in_concat. exists b. split; [eapply nth_error_In; eauto|exact Ib]. }
    split; [exact Hi|]. split; [exact Hk|]. split.
    + intros j Hj Hkj. destruct (IB j Hj) as (q' & b' & Hq' & Hb'). destruct (HB q' b' Hq') as (i2 & r2 & _ & _ & _ & HJ').
      destruct (HJ' j Hb') as (_ & Hk'). rewrite Hkj in Hk'. injection Hk' as Hk'. assert (q' = q) by lia. subst q'. rewrite Eq in Hq'. injection Hq' as <-.
      destruct (HJ j Hb') as (Vj & _). rewrite Eb in Hb'. destruct Hb' as [-> | Hr]; [lia|].
      destruct (nth_error_split blocks q Eq) as (l1 & l2 & El & _). rewrite El, concat_app in E. cbn [concat] in E. rewrite Eb in E. cbn [app] in E.
      rewrite E in OP. pose proof (ordpairs_mid _ _ _ _ j OP (in_or_app _ _ _ (or_introl Hr)) (eq_sym Vj)). lia.
    + apply zrd_some in Hc as (_ & Hc). replace (Z.to_nat (Z.of_nat q + 1)) with (S q) in Hc by lia. rewrite Hc. do 2 f_equal.
      set (g := fun j => nth (Z.to_nat j) keys 0).
      assert (EK : keys = map g (map Z.of_nat (seq 0 (Z.to_nat n)))).
      { apply list_ext. intros k. rewrite map_map, nth_error_map, nth_error_seq. unfold g.
        destruct (Nat.ltb_spec k (Z.to_nat n)); cbn [option_map].
        - rewrite Nat2Z.id, Nat.add_0_l. apply nth_error_nth'. lia.
        - apply nth_error_None. lia. }
      rewrite EK, countb_map, <- (countb_perm _ _ _ P), E. rewrite (count_block g blocks 1 q).
      * now rewrite (nth_error_nth _ _ [] Eq).
      * intros k b' Hk' j Hj. destruct (HB k b' Hk') as (i3 & r3 & _ & _ & _ & HJ'). destruct (HJ' j Hj) as (_ & Kj). apply zrd_some in Kj as (_ & Kj).
        unfold g. now rewrite (nth_error_nth _ _ 0 Kj).
Qed.

(** ** The call *)
Lemma seen_vals a : seen a (a_mem a) = arg_vals 0 a. Proof. reflexivity. Qed.
Lemma base_right b : from_one b -> base_index b = Done 1.
Proof.
  destruct b as [z|]; [|reflexivity]. intros ((H1 & H2) & H3). unfold base_index. rewrite (proj2 (Z.leb_le _ _) H1), (proj2 (Z.ltb_lt _ _) H2), (proj2 (Z.eqb_neq _ _) H3). reflexivity.
Qed.
Lemma filter_right n f : filter_fine n f -> check_filter n f = Done tt.
Proof.
  destruct f as [|a|]; try reflexivity. cbn. destruct (Z.eqb_spec (a_dtype a) 0); [|reflexivity]. intros [H | H]; [contradiction|]. rewrite H, Z.eqb_refl. reflexivity.
Qed.

Section Call.
  Context (junk n : Z) (a : arg Z) (size : nat) (v : arg (list Z)) (f : param bool) (b : option Z).
  Hypothesis HA : index_array n a.
  Hypothesis HV : items_array n size v.
  Hypothesis HF : filter_fine (a_len a) f.

  Lemma call_is cut : GroupFromLexSortAll junk a size v cut f b =
    obind (read_cutoffs (a_len a) cut) (fun cut => obind (base_index b) (fun base =>
      match cut with
      | Some ends =>
          if forallb (fun p => 0 <=? snd p) (parts 0 ends) then
            obind (undef (GroupFromLexSort_cutoffs item_differ (item_shift size) (arg_vals [] v) (arg_vals 0 a) junk ends)) (fun r =>
              let '(keys, idx, first, cnt, us) := r in
              Done (mkGroups (key_type a) (keys ++ repeat junk (length (arg_vals [] v) - length keys)) first cnt (Some us) (seen a (replaced a idx))))
          else Undefined
      | None =>
          obind (undef (GroupFromLexSort item_differ (item_shift size) base (arg_vals [] v) (arg_vals 0 a) junk)) (fun r =>
            let '(keys, first, cnt) := r in Done (mkGroups (key_type a) keys first cnt None (arg_vals 0 a)))
      end)).
  Proof.
    destruct HA as (HD & HL & HO & HG & H31). destruct HV as (Hn & VO & VG & _). unfold GroupFromLexSortAll. pose proof (proj1 VO) as LV.
    rewrite (proj2 (Z.ltb_ge _ _)) by lia.
    assert (K : forall bits, bits = 32 /\ a_dtype a = 5 \/ bits = 64 /\ a_dtype a <> 5 -> GroupCall junk bits a size v cut f b =
      obind (read_cutoffs (a_len a) cut) (fun cut => obind (base_index b) (fun base =>
      match cut with
      | Some ends =>
          if forallb (fun p => 0 <=? snd p) (parts 0 ends) then
            obind (undef (GroupFromLexSort_cutoffs item_differ (item_shift size) (arg_vals [] v) (arg_vals 0 a) junk ends)) (fun r =>
              let '(keys, idx, first, cnt, us) := r in
              Done (mkGroups (key_type a) (keys ++ repeat junk (length (arg_vals [] v) - length keys)) first cnt (Some us) (seen a (replaced a idx))))
          else Undefined
      | None =>
          obind (undef (GroupFromLexSort item_differ (item_shift size) base (arg_vals [] v) (arg_vals 0 a) junk)) (fun r =>
            let '(keys, first, cnt) := r in Done (mkGroups (key_type a) keys first cnt None (arg_vals 0 a)))
      end))).
    { intros bits HB. unfold GroupCall. rewrite (filter_right _ _ HF). destruct (read_cutoffs (a_len a) cut) as [cut'| |]; try reflexivity. cbn [obind].
      destruct (base_index b) as [base| |]; try reflexivity. cbn [obind].
      assert (E1 : (bits =? 32) && (2 ^ 31 <=? a_len a) = false).
      { destruct HB as [(-> & H5)|(-> & H5)]; [|reflexivity]. cbn. apply Z.leb_gt. apply H31. exact H5. }
      rewrite E1. rewrite (read_arg_right 0 (a_len a) a) by (try assumption; lia). rewrite (read_arg_right [] n v) by assumption. cbn [undef obind].
      assert (E2 : (if bits =? 32 then 5 else 7) = key_type a).
      { unfold key_type. destruct HB as [(-> & H5)|(-> & H5)]; [rewrite H5; reflexivity|]. rewrite (proj2 (Z.eqb_neq _ _) H5). reflexivity. }
      rewrite E2, seen_vals. reflexivity. }
    destruct HD as [E|[E|[E|[]]]]; rewrite <- E; apply K; [left|right|right]; split; auto; congruence.
  Qed.
End Call.
