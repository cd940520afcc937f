(** C81, C82: the output array and the shape of operations on two operands. *)
From Verif Require Import Base Mem OutModel OutSpec OutProofs Out2Proofs.
Local Open Scope Z_scope.

(** * C81: an accepted output array gets the result *)

(** For operands whose items are not wider than those of the output: whatever the threads do, each output item is the function of the
    operands as they were before the call, and no other byte changes. *)
Theorem C81_output_partial f out a b m n es :
  (forall x y, Z.of_nat (length (f x y)) = isz out) -> 0 < isz out -> CheckOutputs out a b = true -> fits_out n out a -> fits_out n out b ->
  schedule n es ->
  (forall i, (i < n)%nat -> bytes_at (run f out a b m es) (base out + isz out * Z.of_nat i) (isz out) = f (item m a i) (item m b i))
  /\ (forall x, x < base out \/ base out + isz out * Z.of_nat n <= x -> run f out a b m es x = m x).
Proof. intros W S O A B Sc. exact (run_ok f out a b m n W S O A B es Sc). Qed.
Print Assumptions C81_output_partial.

(** a += b with two chunks in an interleaved order; the output is the first operand *)
Definition two_bytes (m : list Z) : memory := fun x => match zrd m x with Some v => v | None => 0 end.
Definition add_bytes (x y : list Z) : list Z := [hd 0 x + hd 0 y].
Definition interleaved : list event := [Load (2, 1); Load (0, 2); Store (2, 1); Store (0, 2)]%nat.
Lemma interleaved_ok : schedule 3 interleaved.
Proof.
  split; [|split].
  - cbn. apply perm_trans with [0; 2; 1]%nat; constructor; constructor.
  - cbn. apply Permutation_refl.
  - intros p c q E. destruct p as [|e1 [|e2 [|e3 [|e4 p]]]]; try discriminate E; injection E; intros; subst; cbn; auto. destruct p; discriminate.
Qed.
Example C81_output_example :
  CheckOutputs (View 0 1 3) (Ram (View 0 1 3)) (Ram (View 3 1 3)) = true /\ fits_out 3 (View 0 1 3) (Ram (View 0 1 3))
  /\ map (run add_bytes (View 0 1 3) (Ram (View 0 1 3)) (Ram (View 3 1 3)) (two_bytes [1; 2; 3; 10; 20; 30]) interleaved) [0; 1; 2; 3; 4; 5] = [11; 22; 33; 10; 20; 30].
Proof. split; [reflexivity|split; [cbn; lia|reflexivity]]. Qed.

(** An accepted output inside an operand with wider items (a comparison writing its bools into the memory of its operand): the
    items not read yet are overwritten, even by one thread. *)
Theorem C81_output_inside_refuted : exists f out a b m n es i, (forall x y, Z.of_nat (length (f x y)) = isz out) /\ CheckOutputs out a b = true
  /\ schedule n es /\ (i < n)%nat /\ (forall v, a = Ram v -> cnt v = n) /\
  bytes_at (run f out a b m es) (base out + isz out * Z.of_nat i) (isz out) <> f (item m a i) (item m b i).
Proof.
  exists (fun x y => [if list_eq_dec Z.eq_dec x y then 1 else 0]), (View 2 1 2), (Ram (View 0 2 2)), (Reg [7; 0]),
    (two_bytes [7; 0; 7; 0]), 2%nat, [Load (0, 1); Store (0, 1); Load (1, 1); Store (1, 1)]%nat, 1%nat.
  split; [|split; [|split; [|split; [|split]]]].
  - intros x y. reflexivity.
  - reflexivity.
  - split; [|split]; [apply Permutation_refl|apply Permutation_refl|].
    intros p c q E. destruct p as [|e1 [|e2 [|e3 [|e4 p]]]]; try discriminate E; injection E; intros; subst; cbn; auto. destruct p; discriminate.
  - lia.
  - intros v E. now injection E as <-.
  - intros E. vm_compute in E. discriminate.
Qed.
Print Assumptions C81_output_inside_refuted.

(** With narrower items at the same address the result depends on the order of the threads. *)
Theorem C81_output_threads_refuted : exists f out a b m n es es', (forall x y, Z.of_nat (length (f x y)) = isz out) /\ CheckOutputs out a b = true
  /\ schedule n es /\ schedule n es' /\ (forall v, a = Ram v -> cnt v = n)
  /\ (forall i, (i < n)%nat -> bytes_at (run f out a b m es) (base out + isz out * Z.of_nat i) (isz out) = f (item m a i) (item m b i))
  /\ exists i, (i < n)%nat /\ bytes_at (run f out a b m es') (base out + isz out * Z.of_nat i) (isz out) <> f (item m a i) (item m b i).
Proof.
  exists (fun x y => [if list_eq_dec Z.eq_dec x y then 1 else 0]), (View 0 1 2), (Ram (View 0 2 2)), (Reg [7; 0]),
    (two_bytes [7; 0; 7; 0]), 2%nat, [Load (0, 1); Store (0, 1); Load (1, 1); Store (1, 1)]%nat, [Load (1, 1); Store (1, 1); Load (0, 1); Store (0, 1)]%nat.
  split; [|split; [|split; [|split; [|split; [|split]]]]].
  - intros x y. reflexivity.
  - reflexivity.
  - split; [|split]; [apply Permutation_refl|apply Permutation_refl|].
    intros p c q E. destruct p as [|e1 [|e2 [|e3 [|e4 p]]]]; try discriminate E; injection E; intros; subst; cbn; auto. destruct p; discriminate.
  - split; [|split]; [cbn; constructor|apply Permutation_refl|].
    intros p c q E. destruct p as [|e1 [|e2 [|e3 [|e4 p]]]]; try discriminate E; injection E; intros; subst; cbn; auto. destruct p; discriminate.
  - intros v E. now injection E as <-.
  - intros [|[|i]] I; [reflexivity|reflexivity|lia].
  - exists 0%nat. split; [lia|]. intros E. vm_compute in E. discriminate.
Qed.
Print Assumptions C81_output_threads_refuted.

(** * C82: arrays with several dimensions *)

(** Arrays of the same shape, both in C order or both in Fortran order. *)
Theorem C82_same_order_partial f m a b r : well_formed a -> well_formed b -> dims a = dims b ->
  f_contig a = true /\ f_contig b = true \/ c_contig a = true /\ c_contig b = true -> (0 < len a)%nat -> TwoArrays f m a b = Some r ->
  rdims r = dims a /\ forall idx, index_of (dims a) idx -> result_at r idx = Some (f (at_index m a idx) (at_index m b idx)).
Proof. intros Wa Wb D [[A B]|[A B]] P T; [exact (two_arrays_ok f m a b r true Wa Wb D A B P T)|exact (two_arrays_ok f m a b r false Wa Wb D A B P T)]. Qed.
Print Assumptions C82_same_order_partial.
(** One of them has a single item. *)
Theorem C82_one_item_partial f m a b r : well_formed a -> well_formed b -> TwoArrays f m a b = Some r ->
  (f_contig a = true \/ c_contig a = true -> len b = 1%nat -> (1 < len a)%nat ->
   rdims r = dims a /\ forall idx j, index_of (dims a) idx -> index_of (dims b) j -> result_at r idx = Some (f (at_index m a idx) (at_index m b j)))
  /\ (f_contig b = true \/ c_contig b = true -> len a = 1%nat -> (1 < len b)%nat ->
   rdims r = dims b /\ forall idx j, index_of (dims b) idx -> index_of (dims a) j -> result_at r idx = Some (f (at_index m a j) (at_index m b idx))).
Proof.
  intros Wa Wb T. split; intros [O|O] L P.
  - exact (one_item_right f m a b r true Wa O L P T).
  - exact (one_item_right f m a b r false Wa O L P T).
  - exact (one_item_left f m a b r true Wb O L P T).
  - exact (one_item_left f m a b r false Wb O L P T).
Qed.
Print Assumptions C82_one_item_partial.
Example C82_same_order_example :
  let a := ND 0 4 [2; 3]%nat [4; 8] in let b := ND 100 4 [2; 3]%nat [4; 8] in
  let m := fun x => x / 4 in
  f_contig a = true /\ match TwoArrays Z.add m a b with Some r => rdims r = [2; 3]%nat /\ result_at r [1; 2]%nat = Some (5 + 30) | None => False end.
Proof. vm_compute. auto. Qed.
Example C82_one_item_example :
  let a := ND 0 8 [2; 1; 2]%nat [16; 16; 8] in let b := ND 100 8 [1]%nat [8] in
  c_contig a = true /\ first_stride a = false /\ let a := ND 0 8 [1; 4]%nat [32; 8] in
  match TwoArrays Z.sub (fun x => x) a b with Some r => rdims r = [1; 4]%nat /\ result_at r [0; 3]%nat = Some (24 - 100) | None => False end.
Proof. vm_compute. auto. Qed.

(** Which arrays are taken at all; the others are left to numpy. *)
Theorem C82_taken f m a b : TwoArrays f m a b <> None <-> packed_first a /\ packed_first b /\ lengths_go (len a) (len b).
Proof. exact (two_arrays_taken f m a b). Qed.
Print Assumptions C82_taken.
Example C82_taken_example : packed_first (ND 0 8 [1; 4]%nat [32; 8]) /\ ~ packed_first (ND 0 8 [2; 2]%nat [16; 8]) /\ lengths_go (len (ND 0 8 [1; 4]%nat [32; 8])) 1.
Proof.
  split; [intros n t d s D S; injection D as <- _; auto|]. split; [|right; right; vm_compute; auto]. intros H. destruct (H 2%nat 16 [2%nat] [8] eq_refl eq_refl) as [L|L]; [lia|discriminate].
Qed.

(** A slice of an array in Fortran order: only the first stride is looked at. *)
Theorem C82_slice_refuted : exists f m a b r idx, well_formed a /\ well_formed b /\ dims a = dims b /\ TwoArrays f m a b = Some r
  /\ index_of (dims a) idx /\ result_at r idx <> Some (f (at_index m a idx) (at_index m b idx)).
Proof.
  exists Z.add, (fun x => x), (ND 0 4 [2; 2]%nat [4; 16]), (ND 0 4 [2; 2]%nat [4; 16]), (Res [2; 2]%nat false [0; 8; 16; 24]), [0; 1]%nat.
  repeat split; [repeat constructor|]. vm_compute. discriminate.
Qed.
Print Assumptions C82_slice_refuted.
(** One row of a table with steps between its columns. *)
Theorem C82_row_refuted : exists f m a b r idx, well_formed a /\ well_formed b /\ dims a = dims b /\ hd 0%nat (dims a) = 1%nat /\ TwoArrays f m a b = Some r
  /\ index_of (dims a) idx /\ result_at r idx <> Some (f (at_index m a idx) (at_index m b idx)).
Proof.
  exists Z.add, (fun x => x), (ND 0 4 [1; 3]%nat [24; 8]), (ND 0 4 [1; 3]%nat [24; 8]), (Res [1; 3]%nat false [0; 8; 16]), [0; 1]%nat.
  repeat split; [repeat constructor|]. vm_compute. discriminate.
Qed.
Print Assumptions C82_row_refuted.
(** Both contiguous, in different orders. *)
Theorem C82_mixed_order_refuted : exists f m a b r idx, well_formed a /\ well_formed b /\ dims a = dims b /\ c_contig a = true /\ f_contig b = true /\ TwoArrays f m a b = Some r
  /\ index_of (dims a) idx /\ result_at r idx <> Some (f (at_index m a idx) (at_index m b idx)).
Proof.
  exists Z.add, (fun x => x), (ND 0 4 [1; 2; 2]%nat [16; 8; 4]), (ND 0 4 [1; 2; 2]%nat [4; 4; 8]), (Res [1; 2; 2]%nat false [0; 8; 16; 24]), [0; 0; 1]%nat.
  repeat split; [repeat constructor|]. vm_compute. discriminate.
Qed.
Print Assumptions C82_mixed_order_refuted.
(** Shapes that cannot be combined are accepted, and the result of shapes that can has the wrong one: numpy would give (3, 3) for
    (1, 3) with (3, 1), and (0, 3) for (0, 3) with (0, 3). *)
Theorem C82_shape_refuted : exists f m a b r a' b' r' c r'',
  dims a = [2; 3]%nat /\ dims b = [3; 2]%nat /\ TwoArrays f m a b = Some r
  /\ dims a' = [1; 3]%nat /\ dims b' = [3; 1]%nat /\ TwoArrays f m a' b' = Some r' /\ rdims r' = [1; 3]%nat
  /\ dims c = [0; 3]%nat /\ TwoArrays f m c c = Some r'' /\ rdims r'' = [0]%nat.
Proof.
  exists Z.add, (fun x => x), (ND 0 4 [2; 3]%nat [4; 8]), (ND 0 4 [3; 2]%nat [4; 12]). eexists.
  exists (ND 0 4 [1; 3]%nat [12; 4]), (ND 0 4 [3; 1]%nat [4; 4]). eexists. exists (ND 0 4 [0; 3]%nat [12; 4]). eexists.
  repeat split.
Qed.
Print Assumptions C82_shape_refuted.
