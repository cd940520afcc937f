(** C57: conversion of arrays of several dimensions. *)
From Verif Require Import Base Mem MemLemmas Par LayoutModel LayoutSpec LayoutProofs.
Local Open Scope Z_scope.

(** one dimension or none, any stride, also negative *)
Theorem C57_safe_1d_partial : forall ord thr l osize, fair ord -> good l -> 0 < osize -> (length (dims l) <= 1)%nat ->
  exists o, ConvertSafe ord thr l osize = Filled o /\ same_items l (like l osize) o.
Proof. exact safe_1d. Qed.
Print Assumptions C57_safe_1d_partial.
Theorem C57_safe_fortran_partial : forall ord thr l osize, fair ord -> good l -> 0 < osize -> 0 < isz l -> strides l = fstrides (isz l) (dims l) ->
  exists o, ConvertSafe ord thr l osize = Filled o /\ same_items l (like l osize) o.
Proof. exact safe_F. Qed.
Print Assumptions C57_safe_fortran_partial.
Theorem C57_safe_c_partial : forall ord thr l osize, fair ord -> good l -> 0 < osize -> 0 < isz l -> strides l = cstrides (isz l) (dims l) ->
  exists o, ConvertSafe ord thr l osize = Filled o /\ same_items l (like l osize) o.
Proof. exact safe_C. Qed.
Print Assumptions C57_safe_c_partial.
(** rows [S0] bytes apart in either direction, the items of each row in C order [s] bytes apart: slices a[i:j:k], a[::-1], a[:, ::k], a[::-1, ::-1] *)
Theorem C57_safe_rows_partial : forall ord thr l osize d0 ds S0 s, fair ord -> good l -> 0 < osize -> 0 < isz l -> dims l = d0 :: ds -> ds <> [] -> strides l = S0 :: cstrides s ds ->
  (1 < d0)%nat -> (1 < nth (length ds - 1) ds 0)%nat \/ s = isz l -> Z.abs s < Z.abs S0 ->
  exists o, ConvertSafe ord thr l osize = Filled o /\ same_items l (like l osize) o.
Proof. exact safe_C_rows. Qed.
Print Assumptions C57_safe_rows_partial.
Example C57_rows_example : let l := {| dims := [3; 2]%nat; strides := [-32; 16]; isz := 8 |} in
  good l /\ strides l = -32 :: cstrides 16 [2%nat] /\ ConvertSafe in_order false l 4 = Filled (map Some [0; 16; -32; -16; -64; -48]).
Proof. split; [|split; vm_compute; reflexivity]. split; [repeat constructor|reflexivity]. Qed.
Example C57_fortran_example : let l := {| dims := [2; 3]%nat; strides := [8; 16]; isz := 8 |} in
  strides l = fstrides (isz l) (dims l) /\ strides (like l 4) = [4; 8] /\ ConvertSafe in_order false l 4 = Filled (map Some [0; 8; 16; 24; 32; 40]).
Proof. repeat split; vm_compute; reflexivity. Qed.

(** a[:, ::2, :] of an array whose first dimension has length 1: read as if it were contiguous *)
Theorem C57_first_dim_refuted : exists l o, good l /\ ConvertSafe in_order false l 8 = Filled o /\ ~ same_items l (like l 8) o.
Proof.
  exists {| dims := [1; 2; 2]%nat; strides := [64; 32; 8]; isz := 8 |}. eexists. split; [split; [repeat constructor|reflexivity]|]. split; [vm_compute; reflexivity|].
  intros [_ H]. destruct (H [0; 1; 0]%nat) as (p & E & N); [repeat constructor|]. change (offset _ _) with 16 in E. change (isz _) with 8 in E. assert (p = 2%nat) by lia. subst p. discriminate N.
Qed.
Print Assumptions C57_first_dim_refuted.
(** a[::2] of an array in Fortran order: the items arrive in the order of the columns, the output is in the order of the rows *)
Theorem C57_fortran_slice_refuted : exists l o, good l /\ ConvertSafe in_order false l 8 = Filled o /\ ~ same_items l (like l 8) o.
Proof.
  exists {| dims := [2; 2]%nat; strides := [16; 32]; isz := 8 |}. eexists. split; [split; [repeat constructor|reflexivity]|]. split; [vm_compute; reflexivity|].
  intros [_ H]. destruct (H [0; 1]%nat) as (p & E & N); [repeat constructor|]. change (offset _ _) with 8 in E. change (isz _) with 8 in E. assert (p = 1%nat) by lia. subst p. discriminate N.
Qed.
Print Assumptions C57_fortran_slice_refuted.
(** broadcast_to(a, (3, 2)): the same *)
Theorem C57_broadcast_refuted : exists l o, good l /\ strides l = [0; isz l] /\ ConvertSafe in_order false l 8 = Filled o /\ ~ same_items l (like l 8) o.
Proof.
  exists {| dims := [3; 2]%nat; strides := [0; 8]; isz := 8 |}. eexists. split; [split; [repeat constructor|reflexivity]|]. split; [reflexivity|]. split; [vm_compute; reflexivity|].
  intros [_ H]. destruct (H [0; 1]%nat) as (p & E & N); [repeat constructor|]. change (offset _ _) with 8 in E. change (isz _) with 8 in E. assert (p = 1%nat) by lia. subst p. discriminate N.
Qed.
Print Assumptions C57_broadcast_refuted.
(** sliding_window_view(a, 2): reads items that are not in the array *)
Theorem C57_window_refuted : exists l o off, good l /\ strides l = [isz l; isz l] /\ ConvertSafe in_order false l 8 = Filled o /\
  In (Some off) o /\ forall idx, valid (dims l) idx -> offset (strides l) idx < off.
Proof.
  exists {| dims := [3; 2]%nat; strides := [8; 8]; isz := 8 |}. eexists. exists 40. split; [split; [repeat constructor|reflexivity]|]. split; [reflexivity|]. split; [vm_compute; reflexivity|].
  split; [simpl; tauto|]. cbn [dims strides]. intros idx V. inversion V as [|i ? r ? H V']; subst. inversion V' as [|j ? r' ? H' V'']; subst. inversion V''; subst. simpl. lia.
Qed.
Print Assumptions C57_window_refuted.
(** a[:, :2, :] of an array of three dimensions in Fortran order: items of the output are never written *)
Theorem C57_unwritten_refuted : exists l o, good l /\ ConvertSafe in_order false l 8 = Filled o /\ In None o.
Proof.
  exists {| dims := [2; 2; 2]%nat; strides := [8; 16; 64]; isz := 8 |}. eexists. split; [split; [repeat constructor|reflexivity]|]. split; [vm_compute; reflexivity|]. simpl. tauto.
Qed.
Print Assumptions C57_unwritten_refuted.
(** a[:, :, :2]: converted by numpy, which knows nothing of invalid values *)
Theorem C57_numpy_refuted : exists l, good l /\ ConvertSafe in_order false l 8 = NumPy.
Proof. exists {| dims := [2; 4; 2]%nat; strides := [128; 32; 8]; isz := 8 |}. split; [split; [repeat constructor|reflexivity]|]. vm_compute. reflexivity. Qed.
Print Assumptions C57_numpy_refuted.

(** ** ConvertUnsafe *)
Theorem C57_unsafe_1d_partial : forall ord thr l osize, fair ord -> good l -> 0 < osize -> length (dims l) = 1%nat ->
  exists o, ConvertUnsafe ord thr l osize = Filled o /\ same_items l (like l osize) o.
Proof. exact unsafe_1d. Qed.
Print Assumptions C57_unsafe_1d_partial.
Theorem C57_unsafe_fortran_partial : forall ord thr l osize, fair ord -> good l -> 0 < osize -> (0 < length (dims l))%nat -> strides l = fstrides (isz l) (dims l) ->
  exists o, ConvertUnsafe ord thr l osize = Filled o /\ same_items l (like l osize) o.
Proof. exact unsafe_F. Qed.
Print Assumptions C57_unsafe_fortran_partial.
(** An ordinary array of two dimensions in C order: writes outside of the output. *)
Theorem C57_unsafe_refuted : exists l, good l /\ strides l = cstrides (isz l) (dims l) /\ ConvertUnsafe in_order false l 8 = Overrun.
Proof. exists {| dims := [2; 2]%nat; strides := [16; 8]; isz := 8 |}. split; [split; [repeat constructor|reflexivity]|]. split; vm_compute; reflexivity. Qed.
Print Assumptions C57_unsafe_refuted.
