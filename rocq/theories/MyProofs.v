(** Proofs about MergeBinnedAndSorted from its arguments to its result. *)
From Verif Require Import Base Mem MemLemmas AllModel EaModel EaSpec Ea2Proofs.
From Verif Require Import MwSpec MwProofs MyModel MySpec.
From Verif Require HashModel HashSpec HashProps RvModel FxModel.
Local Open Scope Z_scope.

Lemma type_right w d : type_of w d -> type_code d = d /\ key_bits d = Some w.
Proof. intros [(-> & ->)|(-> & [-> | ->])]; split; reflexivity. Qed.
Lemma z_order : HashSpec.time_order Z.ltb Z.eqb (fun _ => true).
Proof. constructor; intros; lia. Qed.
Lemma ltb_sorted l : HashSpec.time_sorted Z.lt (fun _ => True) l -> HashSpec.time_sorted (fun x y => (x <? y) = true) (fun _ => True) l.
Proof. intros H i j x y L Ei Ej Vx Vy C. apply Z.ltb_lt in C. exact (H i j x y L Ei Ej Vx Vy C). Qed.
Lemma eligible_ltb (key1 key2 val1 val2 : list Z) i j : HashSpec.eligible (fun x y => (x <? y) = true) (fun _ => True) true key1 key2 val1 val2 false i j <->
  HashSpec.eligible Z.lt (fun _ => True) true key1 key2 val1 val2 false i j.
Proof.
  unfold HashSpec.eligible. split; intros (k & x & y & A & B & C & D & V & W & N); exists k, x, y; (split; [exact A|]; split; [exact B|]; split; [exact C|]; split; [exact D|]; split; [exact V|]; split; [exact W|]).
  - intros H. apply N, Z.ltb_lt, H.
  - intros H. apply N, Z.ltb_lt, H.
Qed.
Lemma asof_ltb (key1 key2 val1 val2 : list Z) bad r : HashSpec.asof_spec (fun x y => (x <? y) = true) (fun _ => True) true key1 key2 val1 val2 false bad r ->
  HashSpec.asof_spec Z.lt (fun _ => True) true key1 key2 val1 val2 false bad r.
Proof.
  intros (L & H). split; [exact L|]. intros i x Hx. destruct (H i x Hx) as [(j & E & R & M)|(N & R)].
  - left. exists j. split; [apply eligible_ltb, E|]. split; [exact R|]. intros j' E'. apply M, eligible_ltb, E'.
  - right. split; [|exact R]. intros j E. apply (N j), eligible_ltb, E.
Qed.
Lemma merge_call w k1 k2 v1 v2 uniques k0 : 0 <= uniques < 2 ^ (w - 1) -> table w uniques k1 v1 -> table w uniques k2 v2 -> a_len k1 <= a_len k2 -> (forall x, In x (arg_vals 0 k2) -> x = k0) -> 0 <= k0 < uniques ->
  exists r, MergeCall (PArray k1) (PArray k2) (Some v1) (Some v2) uniques = Done (a_dtype (RvModel.s_arg v1), r) /\
    HashSpec.asof_spec Z.lt (fun _ => True) true (arg_vals 0 k1) (arg_vals 0 k2) (arg_vals 0 (RvModel.s_arg v1)) (arg_vals 0 (RvModel.s_arg v2)) false (- 2 ^ (w - 1)) r.
Proof.
  intros HU (T1 & P1 & L1 & R1 & U1 & Q1 & B1 & E1 & S1) (T2 & P2 & L2 & R2 & U2 & Q2 & B2 & E2 & S2) HL HK H0. unfold MergeCall. cbv zeta.
  destruct (type_right _ _ T1) as (_ & KT1). destruct (type_right _ _ T2) as (_ & KT2). destruct (type_right _ _ U1) as (C1 & KU1). destruct (type_right _ _ U2) as (C2 & _). rewrite C1, C2.
  assert (W : w <= 64) by (clear - T1; unfold type_of in T1; lia).
  assert (I : int64_ok uniques = true).
  { assert (2 ^ (w - 1) <= 2 ^ 63) by (apply Z.pow_le_mono_r; lia). unfold int64_ok. lia. }
  rewrite I. cbn [negb]. assert (N : (a_dtype (RvModel.s_arg v1) <? 0) = false) by (clear - U1; unfold type_of in U1; lia). rewrite N.
  assert (X : negb ((a_dtype (RvModel.s_arg v1) =? a_dtype (RvModel.s_arg v2)) || ((a_dtype (RvModel.s_arg v1) <=? 10) && (a_dtype (RvModel.s_arg v2) <=? 10) &&
    Bool.eqb (Z.odd (a_dtype (RvModel.s_arg v1))) (Z.odd (a_dtype (RvModel.s_arg v2))) && (RvModel.s_bytes v1 =? RvModel.s_bytes v2))) = false).
  { assert (Y : (RvModel.s_bytes v1 =? RvModel.s_bytes v2) = true) by lia. rewrite Y. clear - U1 U2. destruct U1 as [(-> & ->)|(-> & [-> | ->])], U2 as [(? & ->)|(? & [-> | ->])]; try discriminate; reflexivity. }
  rewrite X, KU1, KT1, KT2, Z.eqb_refl. cbn [andb negb orb].
  assert (Y : (uniques <? 0) || (2 ^ (w - 1) <=? uniques) || (2 ^ (w - 1) <=? a_len k1) || (2 ^ (w - 1) <=? a_len k2) = false) by lia. rewrite Y.
  rewrite (proj1 (plain_read 0 _ P1)), (proj1 (plain_read 0 _ P2)), (proj1 (plain_read 0 _ Q1)), (proj1 (plain_read 0 _ Q2)). cbn [undef obind].
  destruct (HashProps.C20_categorical_partial Z Z.ltb Z.eqb (- 2 ^ (w - 1)) k0 (arg_vals 0 k1) (arg_vals 0 k2) (arg_vals 0 (RvModel.s_arg v1)) (arg_vals 0 (RvModel.s_arg v2)) (Z.to_nat uniques)) as (r & R & A).
  - exact z_order.
  - rewrite (proj2 (plain_read 0 _ P1)), (proj2 (plain_read 0 _ P2)). apply Z2Nat.inj_le; [exact (proj1 P1)|exact (proj1 P2)|exact HL].
  - exact HK.
  - intros k [<- |Hk]; rewrite Z2Nat.id by lia; [exact H0|exact (R1 k Hk)].
  - rewrite (proj2 (plain_read 0 _ P1)), (proj2 (plain_read 0 _ Q1)), E1. reflexivity.
  - rewrite (proj2 (plain_read 0 _ P2)), (proj2 (plain_read 0 _ Q2)), E2. reflexivity.
  - apply ltb_sorted. exact S1.
  - apply ltb_sorted. exact S2.
  - rewrite R. cbn [FxModel.of_out obind]. exists r. split; [reflexivity|apply asof_ltb; exact A].
Qed.
Lemma merge_refused k1 k2 v1 v2 uniques :
  match k1, k2, v1, v2 with
  | PArray _, PArray _, Some v1, Some v2 =>
      let d1 := a_dtype (RvModel.s_arg v1) in let d2 := a_dtype (RvModel.s_arg v2) in
      ~ - 2 ^ 63 <= uniques < 2 ^ 63 \/ ~ In d1 [5; 7; 9] \/ d1 <> d2 /\ (RvModel.s_bytes v1 <> RvModel.s_bytes v2 \/ 0 <= d2 <= 20 /\ (Z.even d2 = true \/ 10 < d2))
  | _, _, _, _ => True end -> MergeCall k1 k2 v1 v2 uniques = Error.
Proof.
  destruct k1 as [|k1|]; [reflexivity| |reflexivity]. destruct k2 as [|k2|]; [reflexivity| |reflexivity]. destruct v1 as [v1|]; [|reflexivity]. destruct v2 as [v2|]; [|reflexivity].
  cbv zeta. intros H. unfold MergeCall. cbv zeta. destruct (int64_ok uniques) eqn:I; [|reflexivity]. cbn [negb]. destruct (Z.ltb_spec (type_code (a_dtype (RvModel.s_arg v1))) 0) as [|P]; [reflexivity|].
  assert (C : type_code (a_dtype (RvModel.s_arg v1)) = a_dtype (RvModel.s_arg v1)).
  { unfold type_code in *. destruct ((a_dtype (RvModel.s_arg v1) <? 0) || (20 <? a_dtype (RvModel.s_arg v1))); [lia|reflexivity]. }
  rewrite C in *. destruct (key_bits (a_dtype (RvModel.s_arg v1))) as [w|] eqn:K; [|destruct (negb _); reflexivity].
  assert (D : In (a_dtype (RvModel.s_arg v1)) [5; 7; 9]).
  { revert K. generalize (a_dtype (RvModel.s_arg v1)). clear. intros d. unfold key_bits. destruct d as [|p|p]; try discriminate. repeat (destruct p as [p|p|]; try discriminate); intros _; cbn [In]; auto. }
  destruct H as [H|[H|(N & H)]]; [unfold int64_ok in I; lia|contradiction|].
  assert (X : negb ((a_dtype (RvModel.s_arg v1) =? type_code (a_dtype (RvModel.s_arg v2))) || ((a_dtype (RvModel.s_arg v1) <=? 10) && (type_code (a_dtype (RvModel.s_arg v2)) <=? 10) &&
    Bool.eqb (Z.odd (a_dtype (RvModel.s_arg v1))) (Z.odd (type_code (a_dtype (RvModel.s_arg v2)))) && (RvModel.s_bytes v1 =? RvModel.s_bytes v2))) = true); [|rewrite X; reflexivity].
  apply negb_true_iff, orb_false_iff. split.
  - apply Z.eqb_neq. unfold type_code. destruct (_ || _)%bool; [lia|exact N].
  - destruct H as [H|(B & H)]; [rewrite (proj2 (Z.eqb_neq _ _) H); apply andb_false_r|].
    assert (C2 : type_code (a_dtype (RvModel.s_arg v2)) = a_dtype (RvModel.s_arg v2)) by (unfold type_code; destruct (_ || _)%bool eqn:Z; [lia|reflexivity]). rewrite C2. destruct H as [H|H].
    + assert (O1 : Z.odd (a_dtype (RvModel.s_arg v1)) = true) by (cbn [In] in D; destruct D as [D|[D|[D|[]]]]; rewrite <- D; reflexivity).
      rewrite O1, <- Z.negb_even, H. cbn [negb Bool.eqb]. rewrite andb_false_r. reflexivity.
    + assert (O1 : (a_dtype (RvModel.s_arg v2) <=? 10) = false) by lia. rewrite O1, andb_false_r. reflexivity.
Qed.
