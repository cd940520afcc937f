(** C79: arithmetic and bitwise operations on two operands, under any schedule of the worker threads. *)
From Coq Require Import Reals SpecFloat.
From Flocq Require Import Core BinarySingleNaN.
From Verif Require Import Base Mem ConvModel ConvSpec ConvProofs TwoModel TwoSpec CmpModel MathModel MathSpec MathFloat Math4Proofs.
Local Open Scope Z_scope.

(** Arrays of integers: the result modulo 2^bits, in the smallest type that holds both; also in place. *)
Theorem C79_integers_partial ord thr o at_ t1 t2 d1 d2 xs ys garbage :
  fair ord -> 0 <= t1 <= 10 -> 0 <= t2 <= 10 -> of_num t1 = Some d1 -> of_num t2 = Some d2 ->
  ~ (long_unsigned t1 /\ signed t2) -> ~ (signed t1 /\ long_unsigned t2) -> length xs = length ys ->
  Forall (typed d1) (map VI xs) -> Forall (typed d2) (map VI ys) ->
  d1 = d2 \/ Forall (plain d1) (map VI xs) /\ Forall (plain d2) (map VI ys) -> length garbage = length xs ->
  exists d, result_type d1 d2 = Some d /\
  (exact d o 0 0 <> None -> aligned_out d at_ -> (forall i, (i < length xs)%nat -> no_trap d o (nth i xs 0) (nth i ys 0)) ->
   gives (Math ord thr o at_ (Arr t1 (map VI xs)) (Arr t2 (map VI ys)) garbage) (length xs)
     (fun i v => exists z, exact d o (nth i xs 0) (nth i ys 0) = Some z /\ residue d z v)).
Proof. exact (math_int_arrays ord thr o at_ t1 t2 d1 d2 xs ys garbage). Qed.
Print Assumptions C79_integers_partial.

Example C79_integers_example : gives (Math in_order true MUL None (Arr 2 (map VI [200; 3])) (Arr 1 (map VI [-100; 2])) [VI 0; VI 0]) 2
  (fun i v => exists z, exact I16 MUL (nth i [200; 3] 0) (nth i [-100; 2] 0) = Some z /\ residue I16 z v).
Proof.
  destruct (C79_integers_partial in_order true MUL None 2 1 U8 I8 [200; 3] [-100; 2] [VI 0; VI 0]) as (d & E & H); try reflexivity; try lia.
  - intros B l. apply Permutation_refl.
  - unfold long_unsigned. cbn. lia.
  - unfold long_unsigned. cbn. lia.
  - repeat constructor; cbn; lia.
  - repeat constructor; cbn; lia.
  - right. split; repeat constructor; cbn; try lia; discriminate.
  - injection E as <-. apply H; [discriminate|exact I|]. intros i _. split; [discriminate|]. intros [Q|Q]; discriminate.
Qed.

(** An array of integers and a Python integer, in either order. *)
Theorem C79_scalar_partial ord thr o t d0 xs z garbage :
  fair ord -> 0 <= t <= 10 -> of_num t = Some d0 -> scalar_fits t z -> Forall (typed d0) (map VI xs) ->
  typed d0 (VI z) \/ Forall (plain d0) (map VI xs) -> o <> BANDNOT -> length garbage = length xs ->
  (exists d, typed d (VI z) /\ Forall (typed d) (map VI xs) /\
     (exact d o 0 0 <> None -> (forall i, (i < length xs)%nat -> no_trap d o (nth i xs 0) z) ->
      gives (Math ord thr o None (Arr t (map VI xs)) (Sca (PyInt z)) garbage) (length xs)
        (fun i v => exists k, exact d o (nth i xs 0) z = Some k /\ residue d k v)))
  /\ (exists d, typed d (VI z) /\ Forall (typed d) (map VI xs) /\
     (exact d o 0 0 <> None -> (forall i, (i < length xs)%nat -> no_trap d o z (nth i xs 0)) ->
      gives (Math ord thr o None (Sca (PyInt z)) (Arr t (map VI xs)) garbage) (length xs)
        (fun i v => exists k, exact d o z (nth i xs 0) = Some k /\ residue d k v))).
Proof. exact (math_int_scalar ord thr o t d0 xs z garbage). Qed.
Print Assumptions C79_scalar_partial.

Example C79_scalar_example : exists d, typed d (VI 300) /\ (exact d SUB 0 0 <> None ->
  gives (Math in_order false SUB None (Sca (PyInt 300)) (Arr 2 (map VI [7; 254])) [VI 0; VI 0]) 2
    (fun i v => exists k, exact d SUB 300 (nth i [7; 254] 0) = Some k /\ residue d k v)).
Proof.
  destruct (C79_scalar_partial in_order false SUB 2 U8 [7; 254] 300 [VI 0; VI 0]) as [_ (d & T & _ & H)]; try reflexivity; try lia; try discriminate.
  - intros B l. apply Permutation_refl.
  - right; left. unfold unsigned. cbn. lia.
  - repeat constructor; cbn; lia.
  - right. repeat constructor; cbn; try lia; discriminate.
  - exists d. split; [assumption|]. intros X. apply H; [assumption|]. intros i _. split; [discriminate|]. intros [Q|Q]; discriminate.
Qed.

(** a op= z: the array keeps its type, at any aligned address. *)
Theorem C79_inplace ord thr o a t d xs z garbage :
  fair ord -> 1 <= t <= 10 -> of_num t = Some d -> typed d (VI z) -> Forall (typed d) (map VI xs) -> aligned d a -> o <> BANDNOT ->
  exact d o 0 0 <> None -> (forall i, (i < length xs)%nat -> no_trap d o (nth i xs 0) z) -> length garbage = length xs ->
  gives (Math ord thr o (Some a) (Arr t (map VI xs)) (Sca (PyInt z)) garbage) (length xs) (fun i v => exists k, exact d o (nth i xs 0) z = Some k /\ residue d k v).
Proof. exact (math_inplace_scalar ord thr o a t d xs z garbage). Qed.
Print Assumptions C79_inplace.

Example C79_inplace_example : gives (Math in_order false FLOORDIV (Some 1004) (Arr 5 (map VI [-7; 7])) (Sca (PyInt 2)) [VI 0; VI 0]) 2
  (fun i v => exists k, exact I32 FLOORDIV (nth i [-7; 7] 0) 2 = Some k /\ residue I32 k v).
Proof.
  apply (C79_inplace in_order false FLOORDIV 1004 5 I32); try reflexivity; try lia; try discriminate.
  - intros B l. apply Permutation_refl.
  - split; [reflexivity|cbn; lia].
  - repeat constructor; cbn; lia.
  - intros i _. split; [discriminate|]. intros _ _ [_ Q]. discriminate.
Qed.

(** Arrays of which at least one holds floats: the result on the real numbers, rounded once. *)
Theorem C79_floats_partial ord thr o at_ t1 t2 d1 d2 xs ys rs ss garbage :
  fair ord -> 0 <= t1 <= 12 -> 0 <= t2 <= 12 -> 11 <= t1 \/ 11 <= t2 -> of_num t1 = Some d1 -> of_num t2 = Some d2 -> length xs = length ys ->
  let u := float_type t1 t2 in Forall (fits d1 u) xs -> Forall (fits d2 u) ys -> aligned_out u at_ ->
  Forall2 denotes xs rs -> Forall2 denotes ys ss -> real_op o 0 0 <> None ->
  (forall i t, (i < length xs)%nat -> real_op o (nth i rs 0%R) (nth i ss 0%R) = Some t -> (o = DIV -> nth i ss 0%R <> 0%R) /\ in_range u t) ->
  length garbage = length xs ->
  gives (Math ord thr o at_ (Arr t1 xs) (Arr t2 ys) garbage) (length xs) (fun i v => exists t, real_op o (nth i rs 0%R) (nth i ss 0%R) = Some t /\ rounded u t v).
Proof. exact (math_mixed ord thr o at_ t1 t2 d1 d2 xs ys rs ss garbage). Qed.
Print Assumptions C79_floats_partial.

Example C79_floats_example : gives (Math in_order false DIV None (Arr 3 [VI 3]) (Arr 11 [VF (S754_finite false 8388608 (-22))]) [VI 0]) 1
  (fun i v => exists t, real_op DIV (nth i [3%R] 0%R) (nth i [2%R] 0%R) = Some t /\ rounded F32 t v).
Proof.
  apply (C79_floats_partial in_order false DIV None 3 11 I16 F32); try reflexivity; try lia; try discriminate.
  - intros B l. apply Permutation_refl.
  - repeat constructor; cbn; try lia; try discriminate. exists 3%R. split; [reflexivity|].
    exists (VF (S754_finite false 12582912 (-22))). split; [now split|]. split; [reflexivity|]. cbn. unfold F2R. cbn. field.
  - repeat constructor; cbn; try lia; try discriminate. exists 2%R. assert (E : denotes (VF (S754_finite false 8388608 (-22))) 2%R) by (split; [reflexivity|cbn; unfold F2R; cbn; field]).
    split; [assumption|]. exists (VF (S754_finite false 8388608 (-22))). split; [now split|assumption].
  - repeat constructor.
  - constructor; [|constructor]. split; [reflexivity|]. cbn. unfold F2R. cbn. field.
  - intros [|i] t Hi E; cbn in Hi; [|lia]. injection E as <-. split; [intros _; cbn; now apply not_0_IZR|]. cbn [nth].
    assert (D : denotes (VF (S754_finite false 12582912 (-23))) (3 / 2)%R) by (split; [reflexivity|cbn; unfold F2R; cbn; field]).
    unfold in_range. change (float_type 3 11) with F32. rewrite (nearest_rep F32 (S754_finite false 12582912 (-23)) (3 / 2)%R); [|now split|assumption].
    destruct D as [_ <-]. apply (SF2R_bound (prec F32) (emax F32)). reflexivity.
Qed.

(** An array and a Python float. *)
Theorem C79_float_scalar_partial ord thr o t d xs f rs s garbage :
  fair ord -> 0 <= t <= 12 -> of_num t = Some d -> typed F64 (VF f) -> let u := if t =? 11 then F32 else F64 in
  Forall (fits d u) xs -> denotes (VF f) s -> representable u s -> Forall2 denotes xs rs -> real_op o 0 0 <> None ->
  (forall i k, (i < length xs)%nat -> real_op o (nth i rs 0%R) s = Some k -> (o = DIV -> s <> 0%R) /\ in_range u k) ->
  length garbage = length xs ->
  gives (Math ord thr o None (Arr t xs) (Sca (PyFloat f)) garbage) (length xs) (fun i v => exists k, real_op o (nth i rs 0%R) s = Some k /\ rounded u k v).
Proof. exact (math_float_scalar ord thr o t d xs f rs s garbage). Qed.
Print Assumptions C79_float_scalar_partial.

Example C79_float_scalar_example : gives (Math in_order false MAX None (Arr 5 [VI 3]) (Sca (PyFloat (S754_zero true))) [VI 0]) 1
  (fun i v => exists k, real_op MAX (nth i [3%R] 0%R) 0%R = Some k /\ rounded F64 k v).
Proof.
  apply (C79_float_scalar_partial in_order false MAX 5 I32); try reflexivity; try lia; try discriminate.
  - intros B l. apply Permutation_refl.
  - now split.
  - repeat constructor; cbn; try lia; try discriminate. exists 3%R. split; [reflexivity|]. apply (int_representable F64 3); [reflexivity|cbn; lia].
  - now split.
  - exists (VF (S754_zero false)). now split; split.
  - repeat constructor.
  - intros [|i] t Hi E; cbn in Hi; [|lia]. injection E as <-. split; [discriminate|]. cbn [nth]. rewrite Rmax_left by (now apply IZR_le).
    destruct (int_representable F64 3 eq_refl) as (y & Ty & Dy); [cbn; lia|]. destruct y as [w|g]; [destruct Ty; discriminate|].
    unfold in_range. change (if 5 =? 11 then F32 else F64) with F64. rewrite (nearest_rep F64 g _ Ty Dy). destruct Dy as [_ <-]. apply (SF2R_bound (prec F64) (emax F64)). apply Ty.
Qed.

(** A NaN in either operand gives a NaN: + - * / // % minimum maximum. *)
Theorem C79_nan ord thr o at_ t d xs ys garbage :
  fair ord -> 11 <= t <= 12 -> of_num t = Some d -> length xs = length ys ->
  In o [ADD; SUB; MUL; DIV; FLOORDIV; MOD; MIN; MAX] -> aligned_out d at_ -> length garbage = length xs ->
  gives (Math ord thr o at_ (Arr t (map VF xs)) (Arr t (map VF ys)) garbage) (length xs)
    (fun i v => nth i xs S754_nan = S754_nan \/ nth i ys S754_nan = S754_nan -> v = VF S754_nan).
Proof. intros Ho B E L O. apply math_nan; auto. cbn in O. repeat (destruct O as [<-|O]; [reflexivity|]). destruct O. Qed.
Print Assumptions C79_nan.

Example C79_nan_example : gives (Math in_order false MIN (Some 8) (Arr 12 (map VF [S754_nan])) (Arr 12 (map VF [S754_zero false])) [VI 1]) 1
  (fun i v => nth i [S754_nan] S754_nan = S754_nan \/ nth i [S754_zero false] S754_nan = S754_nan -> v = VF S754_nan).
Proof. apply (C79_nan in_order false MIN (Some 8) 12 F64); try reflexivity; try lia; [intros B l; apply Permutation_refl|cbn; tauto]. Qed.

(** True division of integers up to 2^53: the quotient rounded once. *)
Theorem C79_divide_partial ord thr t1 t2 d1 d2 xs ys garbage :
  fair ord -> 0 <= t1 <= 10 -> 0 <= t2 <= 10 -> of_num t1 = Some d1 -> of_num t2 = Some d2 ->
  ~ (long_unsigned t1 /\ signed t2) -> ~ (signed t1 /\ long_unsigned t2) -> length xs = length ys ->
  Forall (typed d1) (map VI xs) -> Forall (typed d2) (map VI ys) -> d1 = d2 \/ Forall (plain d1) (map VI xs) /\ Forall (plain d2) (map VI ys) ->
  (forall i, (i < length xs)%nat -> Z.abs (nth i xs 0) <= 2 ^ 53 /\ Z.abs (nth i ys 0) <= 2 ^ 53 /\ nth i ys 0 <> 0) -> length garbage = length xs ->
  gives (Math ord thr DIV None (Arr t1 (map VI xs)) (Arr t2 (map VI ys)) garbage) (length xs) (fun i v => rounded F64 (IZR (nth i xs 0) / IZR (nth i ys 0)) v).
Proof. exact (math_div_arrays ord thr t1 t2 d1 d2 xs ys garbage). Qed.
Print Assumptions C79_divide_partial.

Example C79_divide_example : gives (Math in_order false DIV None (Arr 5 (map VI [1])) (Arr 5 (map VI [-3])) [VI 0]) 1 (fun i v => rounded F64 (IZR (nth i [1] 0) / IZR (nth i [-3] 0)) v).
Proof.
  apply (C79_divide_partial in_order false 5 5 I32 I32); try reflexivity; try lia.
  - intros B l. apply Permutation_refl.
  - unfold long_unsigned. cbn. lia.
  - unfold long_unsigned. cbn. lia.
  - repeat constructor; cbn; lia.
  - repeat constructor; cbn; lia.
  - now left.
  - intros [|i] Hi; cbn in *; lia.
Qed.

Theorem C79_divide_scalar_partial ord thr t d xs z garbage :
  fair ord -> 0 <= t <= 10 -> of_num t = Some d -> scalar_fits t z -> Forall (typed d) (map VI xs) -> typed d (VI z) \/ Forall (plain d) (map VI xs) ->
  Z.abs z <= 2 ^ 53 -> (forall i, (i < length xs)%nat -> Z.abs (nth i xs 0) <= 2 ^ 53) -> length garbage = length xs ->
  (z <> 0 -> gives (Math ord thr DIV None (Arr t (map VI xs)) (Sca (PyInt z)) garbage) (length xs) (fun i v => rounded F64 (IZR (nth i xs 0) / IZR z) v))
  /\ ((forall i, (i < length xs)%nat -> nth i xs 0 <> 0) ->
      gives (Math ord thr DIV None (Sca (PyInt z)) (Arr t (map VI xs)) garbage) (length xs) (fun i v => rounded F64 (IZR z / IZR (nth i xs 0)) v)).
Proof. exact (math_div_scalar ord thr t d xs z garbage). Qed.
Print Assumptions C79_divide_scalar_partial.

Example C79_divide_scalar_example : gives (Math in_order false DIV None (Arr 1 (map VI [-128; 100])) (Sca (PyInt 7)) [VI 0; VI 0]) 2 (fun i v => rounded F64 (IZR (nth i [-128; 100] 0) / IZR 7) v).
Proof.
  apply (C79_divide_scalar_partial in_order false 1 I8); try reflexivity; try lia.
  - intros B l. apply Permutation_refl.
  - left. unfold signed. cbn. lia.
  - repeat constructor; cbn; lia.
  - left. split; [reflexivity|cbn; lia].
  - intros [|[|i]] Hi; cbn in *; lia.
Qed.

(** Differences of days: 0 if either is 0 or invalid. *)
Theorem C79_subdates ord thr t d xs ys garbage :
  fair ord -> of_num t = Some d -> d = I32 \/ d = I64 -> length xs = length ys ->
  Forall (typed d) (map VI xs) -> Forall (typed d) (map VI ys) -> length garbage = length xs ->
  gives (Math ord thr SUBDATES None (Arr t (map VI xs)) (Arr t (map VI ys)) garbage) (length xs)
    (fun i v => (is_date d (nth i xs 0) /\ is_date d (nth i ys 0) -> residue d (nth i xs 0 - nth i ys 0) v)
             /\ (~ is_date d (nth i xs 0) \/ ~ is_date d (nth i ys 0) -> v = VI 0)).
Proof. exact (math_subdates ord thr t d xs ys garbage). Qed.
Print Assumptions C79_subdates.

(** Differences of times: NaN if either is 0 or invalid. *)
Theorem C79_subdatetimes ord thr t d xs ys garbage :
  fair ord -> of_num t = Some d -> d = I32 \/ d = I64 -> length xs = length ys ->
  Forall (typed d) (map VI xs) -> Forall (typed d) (map VI ys) -> length garbage = length xs ->
  gives (Math ord thr SUBDATETIMES None (Arr t (map VI xs)) (Arr t (map VI ys)) garbage) (length xs)
    (fun i v => (is_date d (nth i xs 0) /\ is_date d (nth i ys 0) -> lo d <= nth i xs 0 - nth i ys 0 <= hi d -> rounded F64 (IZR (nth i xs 0 - nth i ys 0)) v)
             /\ (~ is_date d (nth i xs 0) \/ ~ is_date d (nth i ys 0) -> v = VF S754_nan)).
Proof. exact (math_subdatetimes ord thr t d xs ys garbage). Qed.
Print Assumptions C79_subdatetimes.

Example C79_dates_example : exists r, Math in_order false SUBDATES None (Arr 5 (map VI [19000; 0])) (Arr 5 (map VI [18000; 5])) [VI 7; VI 7] = Done r
  /\ nth_error r 1 = Some (VI 0) /\ (exists v, nth_error r 0 = Some v /\ residue I32 1000 v).
Proof.
  destruct (C79_subdates in_order false 5 I32 [19000; 0] [18000; 5] [VI 7; VI 7]) as (r & E & _ & H); try reflexivity; auto.
  - intros B l. apply Permutation_refl.
  - repeat constructor; cbn; lia.
  - repeat constructor; cbn; lia.
  - exists r. split; [assumption|]. split.
    + destruct (H 1%nat) as (v & Ev & _ & Hv); [cbn; lia|]. rewrite Ev. f_equal. apply Hv. left. intros [Q _]. now apply Q.
    + destruct (H 0%nat) as (v & Ev & Hv & _); [cbn; lia|]. exists v. split; [assumption|]. apply Hv. split; split; cbn; lia.
Qed.

(** and-not with a scalar: every item is computed from the first one: [12, 5] &~ 4 gives [8, 8], not [8, 1] *)
Theorem C79_andnot_refuted : exists xs z, Math in_order false BANDNOT None (Arr 5 (map VI xs)) (Sca (PyInt z)) [VI 0; VI 0] = Done [VI 8; VI 8]
  /\ map (fun x => Z.land x (Z.lnot z)) xs = [8; 1].
Proof. exists [12; 5], 4. split; vm_compute; reflexivity. Qed.
Print Assumptions C79_andnot_refuted.

(** and-not of nine int32 items and a scalar reads past a 32-byte register *)
Theorem C79_andnot_reads_refuted : exists xs z, Math in_order false BANDNOT None (Arr 5 (map VI xs)) (Sca (PyInt z)) (map VI xs) = Bad.
Proof. exists [1; 2; 3; 4; 5; 6; 7; 8; 9], 4. vm_compute. reflexivity. Qed.
Print Assumptions C79_andnot_reads_refuted.

(** x % 0 stops the process *)
Theorem C79_mod_zero_refuted : exists x, Math in_order false MOD None (Arr 5 [VI x]) (Arr 5 [VI 0]) [VI 0] = Bad.
Proof. exists 1. vm_compute. reflexivity. Qed.
Print Assumptions C79_mod_zero_refuted.

(** -2^31 // -1 stops the process *)
Theorem C79_floordiv_refuted : exists x y, y <> 0 /\ Math in_order false FLOORDIV None (Arr 5 [VI x]) (Arr 5 [VI y]) [VI 0] = Bad.
Proof. exists (- 2 ^ 31), (-1). split; [lia|]. vm_compute. reflexivity. Qed.
Print Assumptions C79_floordiv_refuted.

(** x // y * y + x % y is not x: -7 // 3 = -3 and -7 % 3 = -1 *)
Theorem C79_divmod_refuted : exists x y q r, Math in_order false FLOORDIV None (Arr 7 [VI x]) (Arr 7 [VI y]) [VI 0] = Done [VI q]
  /\ Math in_order false MOD None (Arr 7 [VI x]) (Arr 7 [VI y]) [VI 0] = Done [VI r] /\ q * y + r <> x.
Proof. exists (-7), 3, (-3), (-1). split; [vm_compute; reflexivity|]. split; [vm_compute; reflexivity|lia]. Qed.
Print Assumptions C79_divmod_refuted.

(** an int32 array at an odd address, += 1: the vector loop faults *)
Theorem C79_unaligned_refuted : exists a xs, Math in_order false ADD (Some a) (Arr 5 (map VI xs)) (Sca (PyInt 1)) (map VI xs) = Bad.
Proof. exists 1, [1; 2; 3; 4; 5; 6; 7; 8; 9; 10; 11; 12; 13; 14; 15]. vm_compute. reflexivity. Qed.
Print Assumptions C79_unaligned_refuted.

(** 9007199254740993 / 3 is 3002399751580331, the result 3002399751580330.5 *)
Theorem C79_divide_refuted : exists x y f, x = y * 3002399751580331 /\ Math in_order false DIV None (Arr 7 [VI x]) (Arr 7 [VI y]) [VI 0] = Done [VF f]
  /\ SF2R radix2 f = (IZR 6004799503160661 / 2)%R.
Proof. exists 9007199254740993, 3. eexists. split; [reflexivity|]. split; [vm_compute; reflexivity|]. cbn. unfold F2R. cbn. field. Qed.
Print Assumptions C79_divide_refuted.
