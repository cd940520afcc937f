(** C59: SetItem. *)
From Verif Require Import Base Mem MemLemmas Par ConvModel ConvSpec ConvProofs MaskModel MaskSpec MaskProofs.
Local Open Scope Z_scope.

(** the vectorised count of a mask: any bytes, any length *)
Theorem C59_mask_count : forall bytes, Forall is_byte bytes -> SumBooleanMask bytes = Some (Z.of_nat (countb set bytes)).
Proof. exact SumBooleanMask_ok. Qed.
Print Assumptions C59_mask_count.
Example C59_mask_count_example : SumBooleanMask (map (fun i => (Z.of_nat i * 7) mod 3) (seq 0 70)) = Some 46.
Proof. vm_compute. reflexivity. Qed.

(** One value for every row of the mask that is set: row [i] receives the value whose number is the number of rows set before it.
    Every length (both paths), every order in which the threads write. *)
Theorem C59_setitem_partial : forall (A : Type) ord (arr : list A) mask vals,
  fair ord -> Forall is_byte mask -> length mask = length arr -> length vals = countb set mask -> (0 < countb set mask)%nat ->
  SetItem ord arr mask vals = Some (Some (replaced (assigned mask vals) arr)).
Proof. exact @SetItem_ok. Qed.
Print Assumptions C59_setitem_partial.
(** A single value for all rows of the mask: more than 16384 rows only. *)
Theorem C59_setitem_scalar_partial : forall (A : Type) ord (arr : list A) mask x,
  fair ord -> Forall is_byte mask -> length mask = length arr -> SETITEM_PARTITION_SIZE < Z.of_nat (length arr) -> (0 < countb set mask)%nat ->
  SetItem ord arr mask [x] = Some (Some (replaced (assigned_scalar mask x) arr)).
Proof. exact @SetItem_scalar. Qed.
Print Assumptions C59_setitem_scalar_partial.
(** A wrong number of values is left to numpy, with the array unchanged; so is a single value for a short array. *)
Theorem C59_setitem_punt_partial : forall (A : Type) ord (arr : list A) mask vals,
  Forall is_byte mask -> Z.of_nat (length arr) <= SETITEM_PARTITION_SIZE -> length vals <> countb set mask -> SetItem ord arr mask vals = Some None.
Proof. exact @SetItem_small_punt. Qed.
Print Assumptions C59_setitem_punt_partial.
Example C59_setitem_example :
  SetItem in_order [10; 11; 12; 13; 14] [0; 1; 0; 255; 1] [1; 2; 3] = Some (Some [10; 1; 12; 2; 3]) /\
  replaced (assigned [0; 1; 0; 255; 1] [1; 2; 3]) [10; 11; 12; 13; 14] = [10; 1; 12; 2; 3].
Proof. split; vm_compute; reflexivity. Qed.
(** the hypotheses of the two theorems hold for long arrays as well *)
Example C59_setitem_large_example :
  let n := Z.to_nat 20000 in SETITEM_PARTITION_SIZE < Z.of_nat (length (repeat 0 n)) /\ Forall is_byte (repeat 1 n) /\
  SetItem in_order (repeat 0 n) (repeat 1 n) [7] = Some (Some (replaced (assigned_scalar (repeat 1 n) 7) (repeat 0 n))).
Proof.
  cbv zeta. assert (L : SETITEM_PARTITION_SIZE < Z.of_nat (length (repeat 0 (Z.to_nat 20000)))) by (rewrite repeat_length, Z2Nat.id by lia; reflexivity).
  assert (F : forall n, Forall is_byte (repeat 1 n)) by (intros n; apply Forall_forall; intros x Hx; apply repeat_spec in Hx; subst x; unfold is_byte; lia).
  split; [exact L|]. split; [apply F|]. apply C59_setitem_scalar_partial; [intros B l; reflexivity|apply F| |exact L|].
  - now rewrite !repeat_length.
  - assert (G : forall n, countb set (repeat 1 n) = n) by (induction n; simpl; auto). rewrite G. lia.
Qed.

(** A mask with a stride is read as if it had none: the wrong row is assigned. *)
Theorem C59_setitem_strided_refuted : exists (mask : view Z) arr vals out,
  map Some [0; 0; 1] = items mask /\ length arr = len mask /\ vals = [9] /\
  SetItem in_order arr (read_contiguous mask) vals = Some (Some out) /\
  out <> replaced (assigned [0; 0; 1] vals) arr.
Proof.
  exists {| buf := [0; 1; 0; 0; 1]; start := 0; stride := 2; len := 3 |}, [5; 6; 7], [9], [5; 9; 7].
  split; [reflexivity|]. split; [reflexivity|]. split; [reflexivity|]. split; [vm_compute; reflexivity|]. vm_compute. discriminate.
Qed.
Print Assumptions C59_setitem_strided_refuted.
