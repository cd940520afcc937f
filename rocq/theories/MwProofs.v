(** Proofs about SetItem and PutMask from their arguments to their effects. *)
From Verif Require Import Base Mem MemLemmas AllModel EaModel EaSpec Ea2Proofs.
From Verif Require Import MwModel MwSpec.
From Verif Require ConvModel ConvSpec ConvProofs ConvProps MaskModel MaskSpec MaskProofs MaskProps.
Local Open Scope Z_scope.

Lemma put_back_right {X} (zero : X) (a : arg X) l : plain a -> length l = Z.to_nat (a_len a) -> now_holds zero a l (put_back a l).
Proof.
  intros (HL & (_ & HS & HI) & ST) EL. unfold now_holds.
  assert (B : a_start a + a_len a <= Z.of_nat (length (a_mem a))).
  { destruct (Z.eq_dec (a_len a) 0) as [E|N]; [lia|]. destruct ST as [S|S]; [specialize (HI (a_len a - 1) ltac:(lia)); rewrite S in HI; lia|].
    specialize (HI 0 ltac:(lia)). lia. }
  assert (LF : length (firstn (Z.to_nat (a_start a)) (a_mem a)) = Z.to_nat (a_start a)) by (rewrite firstn_length; lia).
  split; [unfold put_back; rewrite !app_length, LF, EL, skipn_length; lia|]. split.
  - unfold arg_vals. cbn [a_len a_start a_mem a_step]. apply nth_ext with (d := zero) (d' := zero); [rewrite map_length, seq_length; now symmetry|].
    intros i Hi. rewrite map_length, seq_length in Hi. erewrite nth_error_nth; [|rewrite nth_error_map, nth_error_seq; destruct (Nat.ltb_spec i (Z.to_nat (a_len a))); [reflexivity|lia]].
    cbn [Nat.add]. replace (Z.to_nat (a_start a + Z.of_nat i * a_step a)) with (Z.to_nat (a_start a) + i)%nat by
      (destruct ST as [S|S]; [rewrite S; lia|replace i with 0%nat by lia; change (Z.of_nat 0) with 0; rewrite Z.mul_0_l; lia]).
    unfold put_back. rewrite app_nth2 by lia. rewrite LF. replace (Z.to_nat (a_start a) + i - Z.to_nat (a_start a))%nat with i by lia. now rewrite app_nth1 by lia.
  - intros i Hi. unfold put_back. destruct (Z.lt_ge_cases (Z.of_nat i) (a_start a)) as [C|C].
    + rewrite nth_error_app1 by lia. rewrite nth_error_firstn. destruct (Nat.ltb_spec i (Z.to_nat (a_start a))); [reflexivity|lia].
    + rewrite nth_error_app2 by lia. rewrite nth_error_app2 by lia. rewrite nth_error_skipn. f_equal. lia.
Qed.
Lemma replaced_length {A} w (arr : list A) : length (ConvSpec.replaced w arr) = length arr.
Proof. unfold ConvSpec.replaced. rewrite map_length, combine_length, seq_length. apply Nat.min_id. Qed.
Lemma plain_read {X} (zero : X) (a : arg X) : plain a -> read_arg a = Some (arg_vals zero a) /\ length (arg_vals zero a) = Z.to_nat (a_len a).
Proof.
  intros (HL & OK & G). split; [exact (read_arg_right zero (a_len a) a HL OK G)|]. apply (arg_vals_length zero (a_len a)). exact OK.
Qed.

(** The checks of SetItem are passed. *)
Lemma setitem_reads ord a m v : alike a v -> a_dtype m = 0 -> a_len m = a_len (r_items a) -> plain (r_items a) -> plain m -> plain (r_items v) ->
  SetItemCall ord (Some a) (Some m) (Values v) =
  finish (r_items a) (MaskModel.SetItem ord (arg_vals [] (r_items a)) (arg_vals 0 m) (arg_vals [] (r_items v))).
Proof.
  intros (D & D' & S & S' & T) MT ML PA PM PV. unfold SetItemCall. rewrite D, D', S', T, MT, ML, !Z.eqb_refl. rewrite (proj2 (Z.ltb_lt _ _) S). cbn [andb].
  rewrite (proj1 (plain_read [] _ PA)), (proj1 (plain_read 0 _ PM)), (proj1 (plain_read [] _ PV)). reflexivity.
Qed.
Lemma setitem_call ord a m v : fair ord -> alike a v -> a_dtype m = 0 -> a_len m = a_len (r_items a) -> plain (r_items a) -> plain m -> plain (r_items v) ->
  Forall MaskSpec.is_byte (arg_vals 0 m) -> Z.of_nat (countb MaskSpec.set (arg_vals 0 m)) = a_len (r_items v) -> 0 < a_len (r_items v) ->
  exists mem, SetItemCall ord (Some a) (Some m) (Values v) = Done (Some mem) /\
    now_holds [] (r_items a) (ConvSpec.replaced (MaskSpec.assigned (arg_vals 0 m) (arg_vals [] (r_items v))) (arg_vals [] (r_items a))) mem.
Proof.
  intros HO AL MT ML PA PM PV HB HC HP. rewrite setitem_reads by assumption.
  rewrite (MaskProps.C59_setitem_partial (list Z) ord _ _ _ HO HB).
  - eexists. split; [reflexivity|]. apply put_back_right; [exact PA|]. rewrite replaced_length. apply (plain_read [] _ PA).
  - rewrite (proj2 (plain_read 0 _ PM)), (proj2 (plain_read [] _ PA)), ML. reflexivity.
  - rewrite (proj2 (plain_read [] _ PV)). lia.
  - lia.
Qed.
Lemma setitem_one ord a m v x : fair ord -> alike a v -> a_dtype m = 0 -> a_len m = a_len (r_items a) -> plain (r_items a) -> plain m -> plain (r_items v) ->
  Forall MaskSpec.is_byte (arg_vals 0 m) -> arg_vals [] (r_items v) = [x] -> 0 < Z.of_nat (countb MaskSpec.set (arg_vals 0 m)) -> 16384 < a_len (r_items a) ->
  exists mem, SetItemCall ord (Some a) (Some m) (Values v) = Done (Some mem) /\
    now_holds [] (r_items a) (ConvSpec.replaced (MaskSpec.assigned_scalar (arg_vals 0 m) x) (arg_vals [] (r_items a))) mem.
Proof.
  intros HO AL MT ML PA PM PV HB HV HP HL. rewrite setitem_reads by assumption. rewrite HV.
  rewrite (MaskProps.C59_setitem_scalar_partial (list Z) ord _ _ _ HO HB).
  - eexists. split; [reflexivity|]. apply put_back_right; [exact PA|]. rewrite replaced_length. apply (plain_read [] _ PA).
  - rewrite (proj2 (plain_read 0 _ PM)), (proj2 (plain_read [] _ PA)), ML. reflexivity.
  - rewrite (proj2 (plain_read [] _ PA)). unfold MaskModel.SETITEM_PARTITION_SIZE. lia.
  - lia.
Qed.
Lemma setitem_left ord arr mask v :
  match arr, mask with Some a, Some m => ~ alike a v \/ a_dtype m <> 0 \/ a_len m <> a_len (r_items a) | _, _ => True end ->
  SetItemCall ord arr mask (Values v) = Done None.
Proof.
  intros H. unfold SetItemCall. destruct arr as [a|]; [|reflexivity]. destruct mask as [m|]; [|reflexivity].
  match goal with |- (if ?b then _ else _) = _ => destruct b eqn:E end; [|reflexivity]. exfalso. rewrite !andb_true_iff in E. destruct E as ((((((E1 & E2) & E3) & E4) & E5) & E6) & E7).
  destruct H as [H|[H|H]]; [|lia|lia]. apply H. unfold alike. lia.
Qed.
Lemma setitem_count ord a m v : a_dtype m = 0 -> a_len m = a_len (r_items a) -> alike a v -> plain (r_items a) -> plain m -> plain (r_items v) ->
  Forall MaskSpec.is_byte (arg_vals 0 m) -> a_len (r_items a) <= 16384 -> Z.of_nat (countb MaskSpec.set (arg_vals 0 m)) <> a_len (r_items v) ->
  SetItemCall ord (Some a) (Some m) (Values v) = Done None.
Proof.
  intros MT ML AL PA PM PV HB HL HN. rewrite setitem_reads by assumption. rewrite (MaskProps.C59_setitem_punt_partial (list Z) ord _ _ _ HB); [reflexivity| |].
  - rewrite (proj2 (plain_read [] _ PA)). unfold MaskModel.SETITEM_PARTITION_SIZE. lia.
  - rewrite (proj2 (plain_read [] _ PV)). destruct PV as (PV & _). lia.
Qed.

Lemma putmask_call ord thr a m v t u g : fair ord -> ConvModel.of_num (a_dtype v) = Some t -> ConvModel.of_num (a_dtype a) = Some u ->
  a_dtype m = 0 -> a_len m = a_len a -> a_len v = a_len a -> plain a -> plain m -> plain v ->
  (forall i x, nth_error (arg_vals false m) i = Some true -> nth_error (arg_vals (ConvModel.VI 0) v) i = Some x -> ConvModel.convert_putmask t u x = Some (g x)) ->
  exists mem, PutMaskCall ord thr (Some a) (Some m) (Values v) = Done (Some mem) /\
    now_holds (ConvModel.VI 0) a (ConvSpec.replaced (ConvSpec.masked (arg_vals false m) (arg_vals (ConvModel.VI 0) v) g) (arg_vals (ConvModel.VI 0) a)) mem.
Proof.
  intros HO TV TA MT ML VL PA PM PV HG. unfold PutMaskCall. rewrite MT, ML, VL, !Z.eqb_refl.
  assert (G : (a_len a <=? 1) || (a_step a =? 1) = true) by (destruct PA as (_ & _ & [S|S]); lia). rewrite G. cbn [andb]. rewrite TV, TA.
  rewrite (proj1 (plain_read (ConvModel.VI 0) _ PA)), (proj1 (plain_read false _ PM)), (proj1 (plain_read (ConvModel.VI 0) _ PV)). cbn [undef obind].
  rewrite (ConvProps.C59_putmask_partial ord thr t u false _ _ _ g HO); [| | |right; reflexivity|exact HG].
  - eexists. split; [reflexivity|]. apply put_back_right; [exact PA|]. rewrite replaced_length. apply (plain_read (ConvModel.VI 0) _ PA).
  - rewrite (proj2 (plain_read false _ PM)), (proj2 (plain_read (ConvModel.VI 0) _ PA)), ML. reflexivity.
  - rewrite (proj2 (plain_read (ConvModel.VI 0) _ PV)), (proj2 (plain_read (ConvModel.VI 0) _ PA)), VL. reflexivity.
Qed.
Lemma putmask_left ord thr arr mask v :
  match arr, mask with
  | Some a, Some m => a_dtype m <> 0 \/ a_len m <> a_len a \/ a_len v <> a_len a \/ ~ gapless a \/
      ConvModel.of_num (a_dtype v) = None \/ ConvModel.of_num (a_dtype a) = None
  | _, _ => True end ->
  PutMaskCall ord thr arr mask (Values v) = Done None.
Proof.
  intros H. unfold PutMaskCall. destruct arr as [a|]; [|reflexivity]. destruct mask as [m|]; [|reflexivity].
  match goal with |- (if ?b then _ else _) = _ => destruct b eqn:E end; [|reflexivity]. rewrite !andb_true_iff, orb_true_iff in E. destruct E as (((E1 & E2) & E3) & E4).
  destruct H as [H|[H|[H|[H|[H|H]]]]]; [lia|lia|lia|exfalso; apply H; unfold gapless; lia|rewrite H; reflexivity|].
  rewrite H. destruct (ConvModel.of_num (a_dtype v)); reflexivity.
Qed.
