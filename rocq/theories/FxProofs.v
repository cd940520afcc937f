(** Proofs about IsMemberCategoricalFixup from its arguments to its results. *)
From Verif Require Import Base Mem MemLemmas AllModel EaModel EaSpec Ea2Proofs.
From Verif Require Import MwSpec MwProofs FxModel FxSpec.
From Verif Require HashModel HashSpec HashProps BnModel.
Local Open Scope Z_scope.

Lemma int_type_right d : In d [1; 3; 5; 7; 9] -> int_type d = true.
Proof. cbn [In]. unfold int_type. lia. Qed.
Lemma int_type_wrong d : ~ In d [1; 3; 5; 7; 9] -> int_type d = false.
Proof. cbn [In]. unfold int_type. lia. Qed.
Lemma fixup_call a b u len2 base1 base2 : 0 <= len2 < 2 ^ 31 -> 0 <= base1 < 2 ^ 31 -> 0 <= base2 < 2 ^ 31 ->
  categories (base1 + a_len u) a -> categories (base2 + len2) b -> matches len2 u -> a_len b < 2 ^ 31 - 1 ->
  exists res, FixupCall (PArray a) (PArray b) (PArray u) len2 base1 base2 = Done res /\
    Forall2 (HashSpec.fixup_row (- 2 ^ 31) base1 base2 (arg_vals 0 b) (arg_vals 0 u)) (arg_vals 0 a) res.
Proof.
  intros H2 HB1 HB2 (TA & PA & CA) (TB & PB & CB) (TU & PU & LU & RU & DU) LB. unfold FixupCall.
  assert (E1 : BnModel.int32_ok len2 && BnModel.int32_ok base1 && BnModel.int32_ok base2 = true) by (unfold BnModel.int32_ok; lia). rewrite E1. cbn [negb].
  destruct (Z.ltb_spec (2 ^ 31 - 1) (a_len u)); [lia|]. rewrite TU. change (negb (5 =? 5)) with false. cbv iota. rewrite (int_type_right _ TB). cbn [negb].
  assert (E2 : (len2 <? 0) || (base1 <? 0) || (base2 <? 0) = false) by lia. rewrite E2.
  rewrite (proj1 (plain_read 0 u PU)), (proj1 (plain_read 0 b PB)). cbn [undef obind].
  destruct (HashProps.C52_fixup_partial invalid32 base1 base2 (arg_vals 0 a) (arg_vals 0 b) (arg_vals 0 u) (Z.to_nat len2)) as (res & R & F).
  - unfold invalid32. lia.
  - intros x Hx. rewrite Z2Nat.id by lia. exact (RU x Hx).
  - exact DU.
  - intros v Hv. rewrite (proj2 (plain_read 0 u PU)), Z2Nat.id by (destruct PU as (X & _); exact X). exact (CA v Hv).
  - intros v Hv. rewrite Z2Nat.id by lia. exact (CB v Hv).
  - rewrite (proj2 (plain_read 0 b PB)), Z2Nat.id by (destruct PB as (X & _); exact X). exact LB.
  - unfold HashModel.IsMemberCategoricalFixup in R. destruct (HashModel.FindFirstOccurence invalid32 base2 (arg_vals 0 b) (arg_vals 0 u) (Z.to_nat len2)) as [reidx| |]; cbn [HashModel.obind] in R; [|discriminate R|discriminate R].
    cbn [of_out obind]. rewrite (int_type_right _ TA), (proj1 (plain_read 0 a PA)). cbn [negb undef obind]. rewrite R. exists res. split; [reflexivity|exact F].
Qed.
Lemma fixup_refused a b u len2 base1 base2 :
  match a, b, u with
  | PArray a, PArray b, PArray u => ~ (- 2 ^ 31 <= len2 < 2 ^ 31 /\ - 2 ^ 31 <= base1 < 2 ^ 31 /\ - 2 ^ 31 <= base2 < 2 ^ 31) \/ a_dtype u <> 5 \/ 2 ^ 31 <= a_len u \/
      ~ In (a_dtype b) [1; 3; 5; 7; 9]
  | _, _, _ => True end -> FixupCall a b u len2 base1 base2 = Error.
Proof.
  destruct a as [|a|]; [reflexivity| |reflexivity]. destruct b as [|b|]; [reflexivity| |reflexivity]. destruct u as [|u|]; [reflexivity| |reflexivity]. intros H. unfold FixupCall.
  destruct (BnModel.int32_ok len2 && BnModel.int32_ok base1 && BnModel.int32_ok base2) eqn:E; [|reflexivity]. cbn [negb]. destruct (Z.ltb_spec (2 ^ 31 - 1) (a_len u)); [reflexivity|].
  destruct (Z.eqb_spec (a_dtype u) 5); [|reflexivity]. cbn [negb]. unfold BnModel.int32_ok in E. destruct H as [H|[H|[H|H]]]; [lia|lia|lia|]. rewrite (int_type_wrong _ H). reflexivity.
Qed.
Lemma reverse_map_throw inv : forall uniq i rmap matched, (exists v, In v uniq /\ v <> inv /\ ~ 0 <= v < Z.of_nat (length rmap)) -> HashModel.reverse_map inv uniq i rmap matched = HashModel.Throw.
Proof.
  induction uniq as [|x uniq IH]; intros i rmap matched (v & I & N & O); [destruct I|]. cbn [HashModel.reverse_map]. destruct I as [-> |I].
  - destruct (Z.eqb_spec v inv); [contradiction|]. unfold zwr. destruct (Z.leb_spec 0 v); cbn [andb]; [|reflexivity]. destruct (Z.ltb_spec v (Z.of_nat (length rmap))); [lia|]. reflexivity.
  - destruct (Z.eqb_spec x inv); [apply IH; exists v; auto|]. destruct (zwr rmap x i) as [rmap'|] eqn:E; [|reflexivity]. apply IH. exists v. split; [exact I|]. split; [exact N|].
    assert (L : length rmap' = length rmap) by (destruct (zwr_inv _ _ _ _ E) as (_ & ->); apply length_upd). rewrite L. exact O.
Qed.
(** A match that is no category of the second array. *)
Lemma fixup_match a b u len2 base1 base2 x : plain u -> plain b -> 0 <= len2 -> 0 <= base1 -> 0 <= base2 -> In x (arg_vals 0 u) -> x <> - 2 ^ 31 -> ~ 0 <= x < len2 ->
  FixupCall (PArray a) (PArray b) (PArray u) len2 base1 base2 = Error.
Proof.
  intros PU PB H2 HB1 HB2 I N O. unfold FixupCall. destruct (BnModel.int32_ok len2 && BnModel.int32_ok base1 && BnModel.int32_ok base2); [|reflexivity]. cbn [negb].
  destruct (2 ^ 31 - 1 <? a_len u); [reflexivity|]. destruct (negb (a_dtype u =? 5)); [reflexivity|]. destruct (negb (int_type (a_dtype b))); [reflexivity|].
  assert (E2 : (len2 <? 0) || (base1 <? 0) || (base2 <? 0) = false) by lia. rewrite E2. rewrite (proj1 (plain_read 0 u PU)), (proj1 (plain_read 0 b PB)). cbn [undef obind].
  unfold HashModel.FindFirstOccurence. rewrite reverse_map_throw; [reflexivity|]. exists x. split; [exact I|]. split; [exact N|]. rewrite repeat_length, Z2Nat.id by exact H2. exact O.
Qed.
(** The type of the first array is looked at last. *)
Lemma fixup_first a b u len2 base1 base2 res : ~ In (a_dtype a) [1; 3; 5; 7; 9] -> FixupCall (PArray a) b u len2 base1 base2 <> Done res.
Proof.
  intros H. destruct b as [|b|]; try (cbn; discriminate). destruct u as [|u|]; try (cbn; discriminate). unfold FixupCall. rewrite (int_type_wrong _ H). cbn [negb].
  destruct (negb _); [discriminate|]. destruct (2 ^ 31 - 1 <? a_len u); [discriminate|]. destruct (negb (a_dtype u =? 5)); [discriminate|]. destruct (negb (int_type (a_dtype b))); [discriminate|].
  destruct (_ || _ || _)%bool; [discriminate|]. destruct (read_arg u); [|discriminate]. cbn [undef obind]. destruct (read_arg b); [|discriminate]. cbn [undef obind].
  destruct (HashModel.FindFirstOccurence _ _ _ _ _); cbn [of_out obind]; discriminate.
Qed.
