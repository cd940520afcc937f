(** C94: operations on the items of one array, src/one_input.cpp. *)
From Coq Require Import Reals SpecFloat.
From Verif Require Import RedModel.
From Verif Require Import Base ConvModel ConvSpec TwoModel MathSpec UnaryModel UnarySpec.
From Verif Require Import LayoutModel LayoutSpec.
From Verif Require Import StackModel OneModel OneSpec OneProofs One2Proofs One3Proofs.
Local Open Scope Z_scope.

(** Without an array for the result, an array without gaps gives a new array of the same shape that holds the result for every item.
    Missing: arrays with gaps, tests, ABS of int64, NEG (see the refutations below). *)
Theorem C94_new_array_partial : forall c junk u t n a,
  type_number t n -> right_ops u t -> isz (a_lay a) = size t -> packed_array (a_lay a) ->
  inside t (a_mem a) (a_base a) (size t) (Z.of_nat (prod (dims (a_lay a)))) ->
  (forall i x, 0 <= i < Z.of_nat (prod (dims (a_lay a))) -> item_at t (a_mem a) (a_base a) (size t) i x -> right_item u t x) ->
  exists r, process_one_input c junk u n a None = NewArray r /\ dims (a_lay r) = dims (a_lay a) /\ isz (a_lay r) = size t /\
    len (a_mem r) = Z.of_nat (prod (dims (a_lay a))) * size t /\
    forall idx, valid (dims (a_lay a)) idx -> exists x y,
      load (a_base a + offset (strides (a_lay a)) idx) (size t) (a_mem a) = Some x /\
      load (a_base r + offset (strides (a_lay r)) idx) (size t) (a_mem r) = Some y /\ computed u t x y.
Proof. exact new_array_ok. Qed.
Print Assumptions C94_new_array_partial.
Example C94_new_array_ex :
  items_of I16 (process_one_input no_lib no_junk ABS 3 (matrix I16 [3; 6]%nat (map VI [-1; 2; -3; 4; -5; 6; -7; 8; -9; 10; -11; 12; -13; 14; -15; 16; -17; 18])) None)
  = Some (map VI [1; 2; 3; 4; 5; 6; 7; 8; 9; 10; 11; 12; 13; 14; 15; 16; 17; 18]).
Proof. vm_compute. reflexivity. Qed.
Example C94_new_array_hyp : type_number I16 3 /\ right_ops ABS I16 /\ packed_array (a_lay (matrix I16 [1; 2]%nat [VI 3; VI (-4)])) /\
  inside I16 (a_mem (matrix I16 [1; 2]%nat [VI 3; VI (-4)])) 0 2 2 /\ right_item ABS I16 [252; 255].
Proof.
  split; [cbn; auto|]. split; [left; split; [reflexivity|discriminate]|]. split. { split; [now left|]. split; [repeat constructor|discriminate]. }
  split. { split; [vm_compute; repeat constructor; discriminate|]. change (len _) with 4. change (size I16) with 2. lia. }
  vm_compute. split; [discriminate|]. intros [H|[H|[H|[H|[]]]]]; discriminate H.
Qed.

(** With an array of one dimension for the result, its items are computed, and nothing else is changed. What is returned is None.
    Missing: an input without gaps and a result with gaps, several dimensions (refuted below). *)
Theorem C94_given_partial : forall c junk u t n a r d s so,
  type_number t n -> right_ops u t -> dims (a_lay a) = [d] -> strides (a_lay a) = [s] -> isz (a_lay a) = size t ->
  dims (a_lay r) = [d] -> strides (a_lay r) = [so] -> isz (a_lay r) = size t ->
  inside t (a_mem a) (a_base a) s (Z.of_nat d) ->
  (forall i x, 0 <= i < Z.of_nat d -> item_at t (a_mem a) (a_base a) s i x -> right_item u t x) ->
  inside t (a_mem r) (a_base r) so (Z.of_nat d) -> size t <= Z.abs so -> (s = size t -> so = size t) ->
  exists m, process_one_input c junk u n a (Some (r, n)) = NoneFor (Some m) /\ len m = len (a_mem r) /\
    (forall i, 0 <= i < Z.of_nat d -> exists x y, item_at t (a_mem a) (a_base a) s i x /\ item_at t m (a_base r) so i y /\ computed u t x y) /\
    forall p, 0 <= p -> (forall i, 0 <= i < Z.of_nat d -> p < a_base r + i * so \/ a_base r + i * so + size t <= p) ->
      nth_error m (Z.to_nat p) = nth_error (a_mem r) (Z.to_nat p).
Proof. exact given_ok. Qed.
Print Assumptions C94_given_partial.
Example C94_given_ex :
  items_of I8 (process_one_input no_lib no_junk INVERT 1 (Arr {| dims := [2]%nat; strides := [-2]; isz := 1 |} 2 [5; 6; 7])
    (Some (Arr {| dims := [2]%nat; strides := [3]; isz := 1 |} 0 [1; 1; 1; 1; 1], 1))) = Some (map VI [-8; 1; 1; -6; 1]).
Proof. vm_compute. reflexivity. Qed.

(** The tests, in memory that is large enough: every item of the result has all bits set, or none.
    Missing: isnotnan, isfinite, isnotinf and isnormal of integers (refuted below). *)
Theorem C94_tests_partial : forall c o t im ib s n om ob inner stride_out so,
  (forall v, exists P, tested o t v = Some P) -> In t [I8; U8; I16; U16; I32; U32; I64; U64; F32; F64] ->
  is_float t = true \/ In o [not_op; isnan_op; isnotfinite_op; isinf_op; isnotnormal_op; isnanorzero_op] -> inner * stride_out = so ->
  inside t im ib s n -> (forall i, 0 <= i < n -> 0 <= ob + i * so /\ ob + i * so + size t <= len om) -> 0 <= n ->
  (s = size t -> so = size t) -> size t <= Z.abs so \/ n <= 1 ->
  exists om', walk_data_array c o (Number t) inner n s stride_out im ib om ob = Finished om' /\ len om' = len om /\
    (forall i, 0 <= i < n -> exists x y P, item_at t im ib s i x /\ item_at t om' ob so i y /\ tested o t (dec t x) = Some P /\ answered P y) /\
    forall p, 0 <= p -> (forall i, 0 <= i < n -> p < ob + i * so \/ ob + i * so + size t <= p) -> nth_error om' (Z.to_nat p) = nth_error om (Z.to_nat p).
Proof. exact tests_ok. Qed.
Print Assumptions C94_tests_partial.
Example C94_tests_ex : walk_data_array no_lib isnan_op (Number F32) 1 2 4 4 (concat (map (enc F32) [VF S754_nan; a_half])) 0 (repeat 7 9) 1 = Finished [7; 255; 255; 255; 255; 0; 0; 0; 0].
Proof. vm_compute. reflexivity. Qed.

(** The test that a caller names is the one that is made. *)
Theorem C94_named : forall u x P, test_of u x = Some P -> exists o, get_op_trait u = Some o /\ value_return o = false /\ forall t, tested o t x = Some P.
Proof. intros u x P H. destruct u; try discriminate H; injection H as <-; eexists; (split; [reflexivity|split; [reflexivity|intros t; reflexivity]]). Qed.
Print Assumptions C94_named.
Example C94_named_ex : exists P, test_of ISNOTNAN a_half = Some P /\ P.
Proof. eexists. split; [reflexivity|]. discriminate. Qed.

(** A test of an array without gaps writes outside of its new array: items of the width of the input into one byte each. *)
Theorem C94_test_refuted : exists a, forall c junk, process_one_input c junk ISNAN 11 a None = Undefined.
Proof. exists (vector F32 [a_half]). intros c junk. vm_compute. reflexivity. Qed.
Print Assumptions C94_test_refuted.
(** An array of one dimension with gaps is written with the gaps: outside of the new array. *)
Theorem C94_gaps_refuted : exists a, inside I32 (a_mem a) (a_base a) 8 2 /\ forall c junk, process_one_input c junk ABS 5 a None = Undefined.
Proof.
  exists (Arr {| dims := [2]%nat; strides := [8]; isz := 4 |} 0 (repeat 1 12)). split; [|intros c junk; vm_compute; reflexivity].
  split; [vm_compute; repeat constructor; discriminate|]. change (len _) with 12. change (size I32) with 4. cbn [a_base]. lia.
Qed.
Print Assumptions C94_gaps_refuted.
(** Equal items get different results: a half is rounded to even in registers and away from zero behind them. *)
Theorem C94_round_refuted : exists a, items_of F32 (process_one_input no_lib no_junk ROUND 11 a None) = Some (repeat (VF (S754_zero false)) 8 ++ [VF (S754_finite false 8388608 (-23))])
  /\ a = vector F32 (repeat a_half 9).
Proof. eexists. split; [|reflexivity]. vm_compute. reflexivity. Qed.
Print Assumptions C94_round_refuted.
(** ABS of int64 only clears the sign bit in registers. *)
Theorem C94_abs64_refuted : exists a, a = vector I64 (repeat (VI (-1)) 5) /\ items_of I64 (process_one_input no_lib no_junk ABS 7 a None) = Some (repeat (VI (2 ^ 63 - 1)) 4 ++ [VI 1]).
Proof. eexists. split; [reflexivity|]. vm_compute. reflexivity. Qed.
Print Assumptions C94_abs64_refuted.
(** NEG is done as INVERT. *)
Theorem C94_neg_refuted : exists a, a = vector I32 [VI 5] /\ items_of I32 (process_one_input no_lib no_junk NEG 5 a None) = Some [VI (-6)].
Proof. eexists. split; [reflexivity|]. vm_compute. reflexivity. Qed.
Print Assumptions C94_neg_refuted.
(** An array of texts that is not empty never ends: the loop does not advance, however many rounds it is given. *)
Theorem C94_text_refuted : forall fuel c o inner outer stride stride_out im ib om ob, 0 < outer ->
  walk_from fuel c o Text inner outer stride stride_out im ib om ob 0 = Running.
Proof. intros fuel c o inner outer stride stride_out im ib om ob H. induction fuel as [|fuel IH]; [reflexivity|]. cbn [walk_from]. destruct (Z.leb_spec outer 0); [lia|]. exact IH. Qed.
Print Assumptions C94_text_refuted.
Example C94_text_ex : process_one_input no_lib no_junk ABS 18 (Arr (new_array false [2]%nat 1) 0 [65; 66]) None = Forever.
Proof. vm_compute. reflexivity. Qed.
(** With a given array of the same shape, an array of two dimensions is written outside of it: the number of dimensions multiplies the stride. *)
Theorem C94_matrix_refuted : exists a r, a_lay a = a_lay r /\ packed_array (a_lay a) /\ forall c junk, process_one_input c junk ABS 5 a (Some (r, 5)) = Undefined.
Proof.
  exists (matrix I32 [2; 2]%nat (map VI [1; 2; 3; 4])), (matrix I32 [2; 2]%nat (map VI [0; 0; 0; 0])). split; [reflexivity|].
  split. { split; [now left|]. split; [repeat constructor|discriminate]. } intros c junk. vm_compute. reflexivity.
Qed.
Print Assumptions C94_matrix_refuted.
(** A result with gaps is written as if it had none if the input has none. *)
Theorem C94_given_gaps_refuted : exists a r, dims (a_lay a) = dims (a_lay r) /\
  items_of F64 (process_one_input no_lib no_junk ABS 12 a (Some (r, 12))) = Some (map VF (repeat (S754_infinity false) 4 ++ repeat (S754_zero false) 4 ++ [S754_infinity false])).
Proof.
  exists (vector F64 (repeat (VF (S754_infinity true)) 5)), (Arr {| dims := [5]%nat; strides := [16]; isz := 8 |} 0 (repeat 0 72)). split; [reflexivity|]. vm_compute. reflexivity.
Qed.
Print Assumptions C94_given_gaps_refuted.
(** The tests for a number that is finite or not missing are false for every integer. *)
Theorem C94_finite_refuted : exists a, a = vector I8 [VI 5] /\ items_of I8 (process_one_input no_lib no_junk ISFINITE 1 a None) = Some [VI 0]
  /\ items_of I8 (process_one_input no_lib no_junk ISNOTNAN 1 a None) = Some [VI 0].
Proof. eexists. split; [reflexivity|]. split; vm_compute; reflexivity. Qed.
Print Assumptions C94_finite_refuted.
(** FLOOR of integers goes through double: it changes large ones, and the largest have no defined result. *)
Theorem C94_floor_refuted : exists a b, a = vector I64 [VI (2 ^ 53 + 1)] /\ items_of I64 (process_one_input no_lib no_junk FLOOR 7 a None) = Some [VI (2 ^ 53)]
  /\ b = vector I64 [VI (2 ^ 63 - 1)] /\ process_one_input no_lib no_junk FLOOR 7 b None = Undefined.
Proof. eexists. eexists. split; [reflexivity|]. split; [vm_compute; reflexivity|]. split; [reflexivity|]. vm_compute. reflexivity. Qed.
Print Assumptions C94_floor_refuted.
(** For other types and operations an exception of C++ leaves a function of C. *)
Theorem C94_throws_refuted :
  (forall c junk u n a out, ~ In n [1; 2; 3; 4; 5; 6; 7; 8; 9; 10; 11; 12; 18; 19] -> process_one_input c junk u n a out = Throws) /\
  (forall c junk u n a out, ~ In u [ABS; ISNAN; ISNOTNAN; ISFINITE; ISNOTFINITE; NEG; INVERT; FLOOR; CEIL; TRUNC; ROUND; SQRT] -> process_one_input c junk u n a out = Throws).
Proof.
  split; intros c junk u n a out H; unfold process_one_input; destruct (GetStridesAndContig _).
  - assert (E : get_type_trait n = None).
    { unfold get_type_trait. repeat match goal with |- context [n =? ?k] => destruct (Z.eqb_spec n k); [exfalso; apply H; subst; cbn; auto 20|] end. reflexivity. }
    rewrite E. destruct (get_op_trait u); reflexivity.
  - destruct u; try reflexivity; exfalso; apply H; cbn; auto 20.
Qed.
Print Assumptions C94_throws_refuted.
(** Of a matrix with a gap behind every row only the first item of every row is computed, and the result is lost: None is returned. *)
Theorem C94_rows_refuted : exists a, dims (a_lay a) = [2; 2]%nat /\ a_mem a = [255; 255; 255; 255; 255; 255] /\
  process_one_input no_lib no_junk ABS 1 a None = NoneFor (Some [1; 0; 1; 0]).
Proof. exists (Arr {| dims := [2; 2]%nat; strides := [3; 1]; isz := 1 |} 0 (repeat 255 6)). split; [reflexivity|]. split; [reflexivity|]. vm_compute. reflexivity. Qed.
Print Assumptions C94_rows_refuted.
(** A result is returned only if none was given and the array has no gaps between its rows. *)
Theorem C94_returned : forall c junk u n a out r, process_one_input c junk u n a out = NewArray r -> out = None /\ fst (GetStridesAndContig (a_lay a)) = 0.
Proof. exact returned_ok. Qed.
Print Assumptions C94_returned.
