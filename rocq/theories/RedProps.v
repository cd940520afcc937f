(** Properties C73 to C77: the reductions of a whole array.
    Floating-point sums are modelled over the real numbers with NaN; the sums of integers over doubles with 53 bits. *)
From Verif Require Import Base Num LayoutModel LayoutSpec RedModel RedSpec Red3Proofs Red5Proofs Red7Proofs.
From Coq Require Import Reals Lra Permutation.
Local Open Scope Z_scope.

Lemma one_block {V} (l : list V) : l <> [] -> splits l [[l]].
Proof. intros N. split; [cbn; rewrite !app_nil_r; reflexivity|]. repeat constructor. assumption. Qed.

(** * C73: sum and nansum *)
(* missing: sums of absolute values above 2^53 (see the refutations), and the rounding of floating-point sums *)
Theorem C73_int_sum_partial t nt sch l : l <> [] -> in_type t l -> splits l sch ->
  (forall x, In x l -> x <> inv t) -> Zabs_sum l <= 2 ^ 53 -> int_sum t nt sch l = PyInt (Zsum l).
Proof. exact (int_sum_valid t nt sch l). Qed.
Print Assumptions C73_int_sum_partial.
Theorem C73_int_sum_invalid t nt sch l : splits l sch -> In (inv t) l -> int_sum t nt sch l = PyInt (inv64 t).
Proof. exact (int_sum_invalid t nt sch l). Qed.
Print Assumptions C73_int_sum_invalid.
Theorem C73_int_nansum_partial t nt sch l : l <> [] -> in_type t l -> splits l sch ->
  Zabs_sum (filter (ivalid t) l) <= 2 ^ 53 -> int_nansum t nt sch l = PyInt (Zsum (filter (ivalid t) l)).
Proof. exact (int_nansum_ok t nt sch l). Qed.
Print Assumptions C73_int_nansum_partial.
Theorem C73_float_sum_partial nt sch xs : xs <> [] -> splits (map Some xs) sch ->
  (threaded nt (map Some xs) = true -> (Rabs_sum xs < IZR (2 ^ 63))%R) ->
  float_sum nt sch (map Some xs) = PyFloat (Some (Rsum xs)).
Proof. exact (float_sum_ok nt sch xs). Qed.
Print Assumptions C73_float_sum_partial.
Theorem C73_float_sum_nan nt sch l : splits l sch -> has_nan l -> float_sum nt sch l = PyFloat None.
Proof. exact (float_sum_nan nt sch l). Qed.
Print Assumptions C73_float_sum_nan.
Theorem C73_float_nansum_partial nt sch l : l <> [] -> splits l sch ->
  (threaded nt l = true -> (Rabs_sum (reals l) < IZR (2 ^ 63))%R) ->
  float_nansum nt sch l = PyFloat (Some (Rsum (reals l))).
Proof. exact (float_nansum_ok nt sch l). Qed.
Print Assumptions C73_float_nansum_partial.

(* the sum of an int64 array is computed in double precision *)
Theorem C73_int64_refuted : exists l, l <> [] /\ in_type I64 l /\ (forall x, In x l -> x <> inv I64) /\
  int_sum I64 true [] l <> PyInt (Zsum l) /\ - 2 ^ 63 < Zsum l < 2 ^ 63.
Proof.
  exists [2 ^ 53; 1]. split; [discriminate|]. split; [repeat constructor; cbn; lia|]. split; [intros x [<- | [<- | []]]; cbn; lia|].
  split; [vm_compute; intros H; discriminate H|cbn; lia].
Qed.
Print Assumptions C73_int64_refuted.
(* the sum of a uint64 array with a sum from 2^63 on is the invalid value, though it fits *)
Theorem C73_uint64_refuted : exists l, l <> [] /\ in_type U64 l /\ (forall x, In x l -> x <> inv U64) /\
  int_sum U64 true [] l = PyInt (inv U64) /\ 0 <= Zsum l < 2 ^ 64 - 1.
Proof.
  exists [2 ^ 63]. split; [discriminate|]. split; [repeat constructor; cbn; lia|]. split; [intros x [<- | []]; cbn; lia|].
  split; [vm_compute; reflexivity|cbn; lia].
Qed.
Print Assumptions C73_uint64_refuted.
(* two schedules, one NaN and one sum, for the same finite array *)
Theorem C73_float_threads_refuted : exists xs sch1 sch2, splits (map Some xs) sch1 /\ splits (map Some xs) sch2 /\
  float_sum false sch1 (map Some xs) = PyFloat None /\ float_sum false sch2 (map Some xs) = PyFloat (Some (Rsum xs)).
Proof. exact float_sum_refuted. Qed.
Print Assumptions C73_float_threads_refuted.

(** * C74: mean, variance, standard deviation *)
(* missing: rounding; arrays whose sums, taken by several threads, reach 2^63 *)
Theorem C74_mean_partial nanf nt sch l : (nanf = false -> ~ has_nan l) -> splits l sch ->
  (threaded nt l = true -> (Rabs_sum (reals l) < IZR (2 ^ 63))%R) -> reals l <> [] ->
  float_mean nanf nt sch l = PyFloat (Some (Rmean (reals l))).
Proof. exact (float_mean_ok nanf nt sch l). Qed.
Print Assumptions C74_mean_partial.
Theorem C74_mean_nan nt sch l : splits l sch -> has_nan l -> float_mean false nt sch l = PyFloat None.
Proof. exact (float_mean_nan nt sch l). Qed.
Print Assumptions C74_mean_nan.
Theorem C74_var_partial f32 nanf std nt sch1 sch2 ddof l : l <> [] -> (nanf = false -> ~ has_nan l) -> splits l sch1 -> splits l sch2 ->
  (threaded nt l = true -> (Rabs_sum (reals l) < IZR (2 ^ 63))%R) ->
  (threaded nt l = true -> nanf || negb f32 = true -> (Rsum (sq_dev (reals l)) < IZR (2 ^ 63))%R) ->
  float_var f32 nanf std nt sch1 sch2 ddof l =
  PyFloat (if ddof <? Z.of_nat (length (reals l)) then Some (if std then sqrt (Rvar ddof (reals l)) else Rvar ddof (reals l)) else None).
Proof. exact (float_var_ok f32 nanf std nt sch1 sch2 ddof l). Qed.
Print Assumptions C74_var_partial.
Theorem C74_var_nan f32 std nt sch1 sch2 ddof l : splits l sch1 -> splits l sch2 -> has_nan l ->
  float_var f32 false std nt sch1 sch2 ddof l = PyFloat None.
Proof. exact (float_var_nan f32 std nt sch1 sch2 ddof l). Qed.
Print Assumptions C74_var_nan.
Theorem C74_var_threads_refuted : exists xs sch, splits (map Some xs) sch /\
  float_var false false false true [] [] 1 (map Some xs) = PyFloat (Some (Rvar 1 xs)) /\
  float_var false false false false sch sch 1 (map Some xs) = PyFloat None.
Proof. exact float_var_refuted. Qed.
Print Assumptions C74_var_threads_refuted.
(* the mean of no value is zero *)
Theorem C74_nanmean_empty_refuted : exists l, l <> [] /\ reals l = [] /\ float_mean true true [] l = PyFloat (Some 0%R).
Proof. exists [None]. split; [discriminate|]. split; reflexivity. Qed.
Print Assumptions C74_nanmean_empty_refuted.

(** * C75: min, max, nanmin, nanmax *)
Theorem C75_int t max nt sch l : l <> [] -> in_type t l -> splits l sch ->
  exists r, int_minmax t false max nt sch l = Some (PyInt r) /\ minmax_ok (IntV t) max l r.
Proof. exact (int_minmax_ok t max nt sch l). Qed.
Print Assumptions C75_int.
Theorem C75_int_nan t max nt sch l : l <> [] -> splits l sch ->
  exists r, int_minmax t true max nt sch l = Some (PyInt r) /\ nanminmax_ok (IntV t) max l r.
Proof. exact (int_nanminmax_ok t max nt sch l). Qed.
Print Assumptions C75_int_nan.
(* w: the lanes of a register, 8 for float32 and 4 for float64 *)
Theorem C75_float w max nt sch l : (0 < w)%nat -> l <> [] -> splits l sch ->
  exists r, flt_minmax w false max nt sch l = Some (PyFloat r) /\ minmax_ok FltV max l r.
Proof. exact (flt_minmax_ok w max nt sch l). Qed.
Print Assumptions C75_float.
Theorem C75_float_nan w max nt sch l : l <> [] -> splits l sch ->
  exists r, flt_minmax w true max nt sch l = Some (PyFloat r) /\ nanminmax_ok FltV max l r.
Proof. exact (flt_nanminmax_ok w max nt sch l). Qed.
Print Assumptions C75_float_nan.

(** * C76: argmin, argmax, nanargmin, nanargmax *)
Theorem C76_int t max l : l <> [] -> exists i, arg_reduce (IntV t) max false l = PyInt (Z.of_nat i) /\ arg_ok (IntV t) max l i.
Proof. exact (arg_reduce_ok (IntV t) Z.ltb_irrefl (int_trans t) (int_tot t) max l). Qed.
Print Assumptions C76_int.
Theorem C76_int_nan t max l : l <> [] -> (filter (ivalid t) l = [] /\ arg_reduce (IntV t) max true l = ValueError) \/
  (filter (ivalid t) l <> [] /\ exists i, arg_reduce (IntV t) max true l = PyInt (Z.of_nat i) /\ nanarg_ok (IntV t) max l i).
Proof. exact (nanarg_reduce_ok (IntV t) Z.ltb_irrefl (int_trans t) (int_tot t) max l). Qed.
Print Assumptions C76_int_nan.
Theorem C76_float max l : l <> [] -> exists i, arg_reduce FltV max false l = PyInt (Z.of_nat i) /\ arg_ok FltV max l i.
Proof. exact (arg_reduce_ok FltV fl_irr fl_trans fl_tot max l). Qed.
Print Assumptions C76_float.
Theorem C76_float_nan max l : l <> [] -> (filter (vvalid FltV) l = [] /\ arg_reduce FltV max true l = ValueError) \/
  (filter (vvalid FltV) l <> [] /\ exists i, arg_reduce FltV max true l = PyInt (Z.of_nat i) /\ nanarg_ok FltV max l i).
Proof. exact (nanarg_reduce_ok FltV fl_irr fl_trans fl_tot max l). Qed.
Print Assumptions C76_float_nan.

(** * C77: which elements are read *)
(* missing: slices of arrays of several dimensions (see the refutations) *)
Theorem C77_contiguous_partial a offs : 0 < isz a -> good a ->
  (length (dims a) = 1%nat \/ strides a = cstrides (isz a) (dims a) \/ f_flag (isz a) (dims a) (strides a) = true) ->
  Reduce_reads a = Read offs -> exact_reads a offs.
Proof. exact (Reduce_reads_ok a offs). Qed.
Print Assumptions C77_contiguous_partial.
(* the first two of the three rows of an array in Fortran order; every second element of one row *)
Theorem C77_fortran_slice_refuted : exists a offs, 0 < isz a /\ good a /\ Reduce_reads a = Read offs /\ ~ exact_reads a offs.
Proof.
  exists {| dims := [2; 2]%nat; strides := [8; 24]; isz := 8 |}. eexists. split; [cbn; lia|]. split; [split; [repeat constructor|reflexivity]|].
  split; [reflexivity|]. intros [_ H]. destruct (proj1 (H 16)) as (idx & V & E); [cbn; lia|].
  inversion V as [|i ? is ? I V']; subst. inversion V' as [|j ? js ? J V'']; subst. inversion V''; subst. cbn in E. lia.
Qed.
Print Assumptions C77_fortran_slice_refuted.
Theorem C77_one_row_refuted : exists a offs, 0 < isz a /\ good a /\ hd 0%nat (dims a) = 1%nat /\ Reduce_reads a = Read offs /\ ~ exact_reads a offs.
Proof.
  exists {| dims := [1; 2]%nat; strides := [32; 16]; isz := 8 |}. eexists. split; [cbn; lia|]. split; [split; [repeat constructor|reflexivity]|].
  split; [reflexivity|]. split; [reflexivity|]. intros [_ H]. destruct (proj1 (H 8)) as (idx & V & E); [cbn; lia|].
  inversion V as [|i ? is ? I V']; subst. inversion V' as [|j ? js ? J V'']; subst. inversion V''; subst. cbn in E. lia.
Qed.
Print Assumptions C77_one_row_refuted.
(* an array without dimensions *)
Theorem C77_scalar_refuted : exists a, 0 < isz a /\ good a /\ Reduce_reads a = Null_deref.
Proof. exists {| dims := []; strides := []; isz := 8 |}. split; [cbn; lia|]. split; [split; [constructor|reflexivity]|reflexivity]. Qed.
Print Assumptions C77_scalar_refuted.

(** * The hypotheses are met *)
Definition ints : list Z := [3; -7; 100].
Example ex_sum : int_sum I32 true [] ints = PyInt 96.
Proof.
  change (PyInt 96) with (@PyInt (car IntD) (Zsum ints)). rewrite <- (C73_int_sum_partial I32 true [[ints]] ints); [reflexivity|discriminate| | | |].
  - repeat constructor; cbn; lia.
  - apply one_block. discriminate.
  - intros x [<- | [<- | [<- | []]]]; cbn; lia.
  - cbn. lia.
Qed.
Example ex_sum_invalid : splits [1; inv I16; 5] [[[1]]; [[inv I16; 5]]] /\ In (inv I16) [1; inv I16; 5].
Proof. split; [split; [reflexivity|repeat constructor; discriminate]|cbn; auto]. Qed.
Example ex_nansum : in_type U8 [1; 255; 5] /\ filter (ivalid U8) [1; 255; 5] = [1; 5] /\ int_nansum U8 true [] [1; 255; 5] = PyInt 6.
Proof. split; [repeat constructor; cbn; lia|]. split; vm_compute; reflexivity. Qed.
Example ex_float : float_sum true [] [Some 1%R; Some 2%R; Some 4%R] = PyFloat (Some 7%R).
Proof.
  change [Some 1%R; Some 2%R; Some 4%R] with (map Some [1; 2; 4]%R). transitivity (@PyFloat (option R) (Some (Rsum [1; 2; 4]%R))).
  - rewrite <- (C73_float_sum_partial true [[map Some [1; 2; 4]%R]] [1; 2; 4]%R); [reflexivity|discriminate|apply one_block; discriminate|discriminate].
  - unfold Rsum. cbn. do 2 f_equal. lra.
Qed.
Example ex_mean : float_mean true true [[[Some 1%R; None; Some 3%R]]] [Some 1%R; None; Some 3%R] = PyFloat (Some 2%R).
Proof.
  rewrite C74_mean_partial; [|discriminate|apply one_block; discriminate|discriminate|discriminate]. unfold Rmean, Rsum. cbn. do 2 f_equal. lra.
Qed.
Example ex_var : float_var true true false true [[[Some 1%R; None; Some 3%R]]] [[[Some 1%R; None; Some 3%R]]] 1 [Some 1%R; None; Some 3%R] = PyFloat (Some 2%R).
Proof.
  rewrite C74_var_partial; [|discriminate|discriminate|apply one_block; discriminate|apply one_block; discriminate|discriminate|discriminate].
  unfold Rvar, sq_dev, Rmean, Rsum. cbn. do 2 f_equal. lra.
Qed.
Example ex_minmax : int_minmax I8 false true true [] [3; 9; -2] = Some (PyInt 9) /\ int_minmax I8 false false true [] [3; -128; 5] = Some (PyInt (-128))
  /\ flt_minmax 4 true false true [] [Fin 3; NaN; NInf] = Some (PyFloat NInf) /\ flt_minmax 8 true true true [] [NaN] = Some (PyFloat NaN).
Proof. repeat split; vm_compute; reflexivity. Qed.
Example ex_arg : arg_reduce (IntV U8) true false [3; 9; 9] = PyInt 1 /\ arg_reduce (IntV U8) true true [255; 9; 4] = PyInt 1
  /\ arg_reduce FltV false false [Fin 3; NaN; NInf] = PyInt 1 /\ arg_reduce FltV false true [NaN; NaN] = ValueError.
Proof. repeat split; vm_compute; reflexivity. Qed.
Definition f23 : layout := {| dims := [2; 3]%nat; strides := [8; 16]; isz := 8 |}.
Example ex_reads : good f23 /\ f_flag 8 (dims f23) (strides f23) = true /\ Reduce_reads f23 = Read [0; 8; 16; 24; 32; 40].
Proof. split; [split; [repeat constructor|reflexivity]|]. split; reflexivity. Qed.
