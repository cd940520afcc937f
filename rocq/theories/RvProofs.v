(** Proofs about ReverseShuffle and ReIndexGroups from their arguments to their effects. *)
From Verif Require Import Base Mem MemLemmas AllModel EaModel EaSpec Ea2Proofs.
From Verif Require Import MwModel MwSpec MwProofs RvModel RvSpec.
From Verif Require MergeModel MergeSpec MergeProps.
Local Open Scope Z_scope.

Lemma bits_right w d : signed_of w d -> bits d = Some w /\ 0 < w /\ (10 <=? d) || Z.even d = false.
Proof. intros [(-> & ->)|[(-> & ->)|[(-> & ->)|(-> & [-> | ->])]]]; (split; [reflexivity|]; split; [lia|reflexivity]). Qed.
Lemma reverse_call ord thr chunk junk a w : fair ord -> (0 < chunk)%nat -> signed_of w (a_dtype a) -> plain a -> shuffle w (arg_vals 0 a) ->
  exists out, ReverseShuffleCall ord thr chunk junk (PArray a) = Done (a_dtype a, out) /\ length out = length (arg_vals 0 a) /\
    (forall i x, nth_error (arg_vals 0 a) i = Some x -> nth_error out (Z.to_nat x) = Some (Z.of_nat i)) /\
    (forall j y, nth_error out j = Some y -> nth_error (arg_vals 0 a) (Z.to_nat y) = Some (Z.of_nat j)).
Proof.
  intros HO HC T P (S & F). destruct (bits_right w _ T) as (B & W & E). unfold ReverseShuffleCall. rewrite E, B, (proj1 (plain_read 0 a P)). cbn [undef obind].
  destruct (MergeProps.C08_reverse_shuffle_is_inverse ord thr chunk w (arg_vals 0 a) junk HO HC W F S) as (out & R & X). rewrite R. cbn [undef obind]. exists out. split; [reflexivity|exact X].
Qed.
Lemma reverse_safe ord thr chunk junk a : fair ord -> (0 < chunk)%nat -> plain a ->
  (exists out, ReverseShuffleCall ord thr chunk junk (PArray a) = Done (a_dtype a, out) /\ length out = length (arg_vals 0 a)) \/
  ReverseShuffleCall ord thr chunk junk (PArray a) = Error.
Proof.
  intros HO HC P. unfold ReverseShuffleCall. destruct ((10 <=? a_dtype a) || Z.even (a_dtype a)); [right; reflexivity|]. destruct (bits (a_dtype a)) as [w|]; [|right; reflexivity]. left.
  rewrite (proj1 (plain_read 0 a P)). cbn [undef obind].
  destruct (MergeProps.C08_reverse_shuffle_never_out_of_bounds ord thr chunk w (arg_vals 0 a) junk HO HC) as (out & R & X). rewrite R. exists out. split; [reflexivity|exact X].
Qed.
Lemma reverse_refused ord thr chunk junk k : match k with PArray a => 10 <= a_dtype a \/ Z.even (a_dtype a) = true | _ => True end ->
  ReverseShuffleCall ord thr chunk junk k = Error.
Proof.
  destruct k as [|a|]; [reflexivity| |reflexivity]. intros H. unfold ReverseShuffleCall. replace ((10 <=? a_dtype a) || Z.even (a_dtype a)) with true; [reflexivity|].
  symmetry. apply orb_true_iff. destruct H as [H|H]; [left; lia|right; exact H].
Qed.

Lemma integers_right w s : integer_array w s -> integers s = Done (arg_vals 0 (s_arg s)) /\ length (arg_vals 0 (s_arg s)) = Z.to_nat (a_len (s_arg s)).
Proof.
  intros (T & W & P). unfold integers. rewrite (proj1 (bits_right w _ T)). rewrite <- W, Z.eqb_refl, (proj1 (plain_read 0 _ P)). split; [reflexivity|apply (plain_read 0 _ P)].
Qed.
Lemma reindex_call order w k u uc ic : integer_array w k -> integer_array 32 u -> integer_array 64 uc -> integer_array 64 ic ->
  a_len (s_arg ic) = a_len (s_arg uc) -> a_len (s_arg uc) < 2 ^ 31 -> Permutation order (seq 0 (Z.to_nat (a_len (s_arg uc)))) ->
  (forall x, In x (arg_vals 0 (s_arg uc)) -> 0 <= x) -> cuts (a_len (s_arg k)) (arg_vals 0 (s_arg ic)) ->
  exists keys mem, ReIndexGroupsCall order (Some k) (Some u) (Some uc) (Some ic) = Done mem /\ now_holds 0 (s_arg k) keys mem /\
    (forall t i, (t < Z.to_nat (a_len (s_arg ic)))%nat -> MergeSpec.part_lo (arg_vals 0 (s_arg ic)) t <= Z.of_nat i < nth t (arg_vals 0 (s_arg ic)) 0 ->
       nth_error keys i = option_map (MergeSpec.remapped w (arg_vals 0 (s_arg u)) (MergeSpec.part_lo (arg_vals 0 (s_arg uc)) t)) (nth_error (arg_vals 0 (s_arg k)) i)) /\
    (forall i, (forall x, In x (arg_vals 0 (s_arg ic)) -> x <= Z.of_nat i) -> nth_error keys i = nth_error (arg_vals 0 (s_arg k)) i).
Proof.
  intros HK HU HUC HIC EL LT HP HU0 (CA & CI).
  destruct (integers_right _ _ HK) as (RK & LK). destruct (integers_right _ _ HU) as (RU & LU). destruct (integers_right _ _ HUC) as (RUC & LUC). destruct (integers_right _ _ HIC) as (RIC & LIC).
  assert (LE : length (arg_vals 0 (s_arg ic)) = length (arg_vals 0 (s_arg uc))) by (rewrite LIC, LUC, EL; reflexivity).
  destruct (MergeProps.C39_reindex_groups w (arg_vals 0 (s_arg u)) (arg_vals 0 (s_arg uc)) (arg_vals 0 (s_arg ic)) order (arg_vals 0 (s_arg k))) as (keys & R & L & A & B).
  - rewrite LE, LUC. exact HP.
  - intros t. unfold MergeSpec.part_lo. destruct t as [|t]; [lia|]. destruct (Nat.lt_ge_cases t (length (arg_vals 0 (s_arg uc)))) as [C|C]; [apply HU0, nth_In, C|rewrite nth_overflow by exact C; lia].
  - exact CA.
  - intros t Ht. rewrite LK, Z2Nat.id by (destruct HK as (_ & _ & (X & _)); exact X). apply CI, nth_In, Ht.
  - exists keys, (put_back (s_arg k) keys). split; [|split; [|split]].
    + unfold ReIndexGroupsCall. destruct HUC as (_ & W1 & _). destruct HIC as (_ & W2 & _). destruct HU as (_ & W3 & _). destruct HK as (T & W4 & _).
      rewrite (proj2 (Z.eqb_eq (s_bytes uc) 8)) by lia. rewrite (proj2 (Z.eqb_eq (s_bytes ic) 8)) by lia. rewrite (proj2 (Z.eqb_eq (s_bytes u) 4)) by lia. cbn [negb].
      assert (SK : (s_bytes k =? 1) || (s_bytes k =? 2) || (s_bytes k =? 4) || (s_bytes k =? 8) = true) by (unfold signed_of in T; lia). rewrite SK. cbn [negb].
      rewrite RUC, RIC, RU, RK. cbn [obind]. rewrite LE, Nat.ltb_irrefl. destruct (Z.leb_spec (2 ^ 31) (a_len (s_arg uc))); [lia|]. cbn [orb]. rewrite <- LE, firstn_all, <- W4, R. reflexivity.
    + apply put_back_right; [exact (proj2 (proj2 HK))|]. rewrite L. exact LK.
    + intros t i Ht Hi. apply A; [rewrite LIC; exact Ht|exact Hi].
    + intros i Hi. apply B. intros t Ht. apply Hi, nth_In, Ht.
Qed.
Lemma reindex_refused order k u uc ic :
  match k, u, uc, ic with
  | Some k, Some u, Some uc, Some ic => s_bytes uc <> 8 \/ s_bytes ic <> 8 \/ s_bytes u <> 4 \/ ~ In (s_bytes k) [1; 2; 4; 8]
  | _, _, _, _ => True end -> ReIndexGroupsCall order k u uc ic = Error.
Proof.
  unfold ReIndexGroupsCall. destruct k as [k|]; [|reflexivity]. destruct u as [u|]; [|reflexivity]. destruct uc as [uc|]; [|reflexivity]. destruct ic as [ic|]; [|reflexivity].
  intros H. cbn [In] in H. destruct (Z.eqb_spec (s_bytes uc) 8); [|reflexivity]. destruct (Z.eqb_spec (s_bytes ic) 8); [|reflexivity]. destruct (Z.eqb_spec (s_bytes u) 4); [|reflexivity].
  cbn [negb]. match goal with |- (if negb ?b then _ else _) = _ => destruct b eqn:E end; [lia|reflexivity].
Qed.
(** Fewer ends of rows than ends of uniques. *)
Lemma reindex_short order k u uc ic w : integer_array w k -> integer_array 32 u -> integer_array 64 uc -> integer_array 64 ic ->
  a_len (s_arg ic) < a_len (s_arg uc) -> ReIndexGroupsCall order (Some k) (Some u) (Some uc) (Some ic) = Undefined.
Proof.
  intros HK HU HUC HIC EL.
  destruct (integers_right _ _ HK) as (RK & LK). destruct (integers_right _ _ HU) as (RU & LU). destruct (integers_right _ _ HUC) as (RUC & LUC). destruct (integers_right _ _ HIC) as (RIC & LIC).
  unfold ReIndexGroupsCall. destruct HUC as (_ & W1 & (P1 & _)). destruct HIC as (_ & W2 & (P2 & _)). destruct HU as (_ & W3 & _). destruct HK as (T & W4 & _).
  rewrite (proj2 (Z.eqb_eq (s_bytes uc) 8)) by lia. rewrite (proj2 (Z.eqb_eq (s_bytes ic) 8)) by lia. rewrite (proj2 (Z.eqb_eq (s_bytes u) 4)) by lia. cbn [negb].
  assert (SK : (s_bytes k =? 1) || (s_bytes k =? 2) || (s_bytes k =? 4) || (s_bytes k =? 8) = true) by (unfold signed_of in T; lia). rewrite SK. cbn [negb].
  rewrite RUC, RIC, RU, RK. cbn [obind]. destruct (Nat.ltb_spec (length (arg_vals 0 (s_arg ic))) (length (arg_vals 0 (s_arg uc)))); [reflexivity|lia].
Qed.
