(** Property C96: group variance and standard deviation. *)
From Verif Require Import Base AccumModel AccumSpec VarModel VarSpec VarProofs Var2Proofs.
From Coq Require Import Reals Lra.
Local Open Scope Z_scope.

(** Every input type but float32: the computation takes place in the output type U (double).  For every arithmetic, with its rounding:
    the bins of the range hold the variance of the rows of their group, the other bins are not touched. *)
Theorem C96_variance :
  forall (T U : Type) okT (uinv zero : U) (conv : T -> U) add sub mul div sqrt low high rows out0 tmp0 sq0,
  0 <= low <= high -> high <= Z.of_nat (length out0) -> length tmp0 = length out0 -> length sq0 = length out0 ->
  (exists res, run_var (AccumVar okT uinv zero zero conv (fun x => x) add sub mul div in_out) low high rows out0 tmp0 sq0 = Some res /\
     length res = length out0 /\ reduced (var_spec okT uinv zero conv (fun x => x) add sub mul div) low high rows res /\ outside_kept low high out0 res) /\
  (exists res, run_var (AccumNanVar okT uinv zero zero conv (fun x => x) add sub mul div in_out) low high rows out0 tmp0 sq0 = Some res /\
     length res = length out0 /\ reduced (nanvar_spec okT uinv zero conv (fun x => x) add sub mul div) low high rows res /\ outside_kept low high out0 res) /\
  (exists res, run_var (AccumStd okT uinv zero zero conv (fun x => x) add sub mul div sqrt in_out) low high rows out0 tmp0 sq0 = Some res /\
     length res = length out0 /\ reduced (std_spec okT uinv zero conv (fun x => x) add sub mul div sqrt) low high rows res /\ outside_kept low high out0 res) /\
  (exists res, run_var (AccumNanStd okT uinv zero zero conv (fun x => x) add sub mul div sqrt in_out) low high rows out0 tmp0 sq0 = Some res /\
     length res = length out0 /\ reduced (nanstd_spec okT uinv zero conv (fun x => x) add sub mul div sqrt) low high rows res /\ outside_kept low high out0 res).
Proof.
  intros. pose proof (in_out_ok zero).
  split; [now apply run_AccumVar|]. split; [now apply run_AccumNanVar|]. split; [now apply run_AccumStd|now apply run_AccumNanStd].
Qed.
Print Assumptions C96_variance.

(** float32: the computation takes place in D (double), with the mean in an array of its own, and the result is cast to U (float). *)
Theorem C96_variance_float32 :
  forall (T U D : Type) okT (uinv zero : U) (zeroD : D) (convD : T -> D) castf addD subD mulD divD sqrtU low high rows out0 tmp0 sq0,
  0 <= low <= high -> high <= Z.of_nat (length out0) -> length tmp0 = length out0 -> length sq0 = length out0 ->
  (exists res, run_var (AccumVar okT uinv zero zeroD convD castf addD subD mulD divD in_tmp) low high rows out0 tmp0 sq0 = Some res /\
     length res = length out0 /\ reduced (var_spec okT uinv zeroD convD castf addD subD mulD divD) low high rows res /\ outside_kept low high out0 res) /\
  (exists res, run_var (AccumNanVar okT uinv zero zeroD convD castf addD subD mulD divD in_tmp) low high rows out0 tmp0 sq0 = Some res /\
     length res = length out0 /\ reduced (nanvar_spec okT uinv zeroD convD castf addD subD mulD divD) low high rows res /\ outside_kept low high out0 res) /\
  (exists res, run_var (AccumStd okT uinv zero zeroD convD castf addD subD mulD divD sqrtU in_tmp) low high rows out0 tmp0 sq0 = Some res /\
     length res = length out0 /\ reduced (std_spec okT uinv zeroD convD castf addD subD mulD divD sqrtU) low high rows res /\ outside_kept low high out0 res) /\
  (exists res, run_var (AccumNanStd okT uinv zero zeroD convD castf addD subD mulD divD sqrtU in_tmp) low high rows out0 tmp0 sq0 = Some res /\
     length res = length out0 /\ reduced (nanstd_spec okT uinv zeroD convD castf addD subD mulD divD sqrtU) low high rows res /\ outside_kept low high out0 res).
Proof.
  intros. pose proof (in_tmp_ok zero zeroD).
  split; [now apply run_AccumVar|]. split; [now apply run_AccumNanVar|]. split; [now apply run_AccumStd|now apply run_AccumNanStd].
Qed.
Print Assumptions C96_variance_float32.

(** Without rounding the variance is that of the sample. *)
Theorem C96_real_variance :
  forall xs r, var_spec is_num None (Some 0%R) (fun x => x) (fun x => x) (lift2 Rplus) (lift2 Rminus) (lift2 Rmult) rdivn (map Some xs) r ->
  r = if (2 <=? length xs)%nat then Some (sample_variance xs) else None.
Proof. exact var_real. Qed.
Print Assumptions C96_real_variance.

(** The standard deviation over the real numbers: rows of numbers and NaN, one bin.  [numbers] leaves out the NaN. *)
Theorem C96_real_groups :
  forall low high rows out0 tmp0 sq0,
  0 <= low <= high -> high <= Z.of_nat (length out0) -> length tmp0 = length out0 -> length sq0 = length out0 ->
  exists v nv s ns,
  run_var (AccumVar is_num None (Some 0%R) (Some 0%R) (fun x => x) (fun x => x) (lift2 Rplus) (lift2 Rminus) (lift2 Rmult) rdivn in_out) low high rows out0 tmp0 sq0 = Some v /\
  run_var (AccumNanVar is_num None (Some 0%R) (Some 0%R) (fun x => x) (fun x => x) (lift2 Rplus) (lift2 Rminus) (lift2 Rmult) rdivn in_out) low high rows out0 tmp0 sq0 = Some nv /\
  run_var (AccumStd is_num None (Some 0%R) (Some 0%R) (fun x => x) (fun x => x) (lift2 Rplus) (lift2 Rminus) (lift2 Rmult) rdivn (lift1 sqrt) in_out) low high rows out0 tmp0 sq0 = Some s /\
  run_var (AccumNanStd is_num None (Some 0%R) (Some 0%R) (fun x => x) (fun x => x) (lift2 Rplus) (lift2 Rminus) (lift2 Rmult) rdivn (lift1 sqrt) in_out) low high rows out0 tmp0 sq0 = Some ns /\
  forall g, low <= g < high ->
    let l := group_vals rows g in let xs := numbers l in
    let var := if (2 <=? length xs)%nat then Some (sample_variance xs) else None in
    let i := Z.to_nat g in
    nth_error nv i = Some var /\ nth_error ns i = Some (lift1 sqrt var) /\
    nth_error v i = Some (if forallb is_num l then var else None) /\ nth_error s i = Some (if forallb is_num l then lift1 sqrt var else None).
Proof.
  intros low high rows out0 tmp0 sq0 H0 H1 L1 L2.
  destruct (C96_variance (option R) (option R) is_num None (Some 0%R) (fun x => x) (lift2 Rplus) (lift2 Rminus) (lift2 Rmult) rdivn (lift1 sqrt)
    low high rows out0 tmp0 sq0 H0 H1 L1 L2) as ((v & E1 & _ & R1 & _) & (nv & E2 & _ & R2 & _) & (s & E3 & _ & R3 & _) & (ns & E4 & _ & R4 & _)).
  exists v, nv, s, ns. split; [exact E1|]. split; [exact E2|]. split; [exact E3|]. split; [exact E4|]. intros g Hg. cbv zeta.
  destruct (R1 g Hg) as (r1 & N1 & S1), (R2 g Hg) as (r2 & N2 & S2), (R3 g Hg) as (r3 & N3 & (w3 & S3 & ->)), (R4 g Hg) as (r4 & N4 & (w4 & S4 & ->)).
  rewrite N1, N2, N3, N4. set (l := group_vals rows g) in *. unfold nanvar_spec in S2, S4. rewrite numbers_filter in S2, S4.
  apply var_real in S2, S4. subst r2 w4.
  destruct (forallb is_num l) eqn:F.
  - assert (A : ~ In None l) by (intros I; rewrite forallb_forall in F; specialize (F None I); discriminate).
    rewrite (numbers_all l A) in S1, S3. apply var_real in S1, S3. subst r1 w3. repeat split; reflexivity.
  - assert (A : In None l).
    { clear - F. induction l as [|[x|] l IH]; cbn in F; [discriminate| |]; [right; now apply IH|now left]. }
    apply (var_none l _ A) in S1, S3. subst r1 w3. repeat split; reflexivity.
Qed.
Print Assumptions C96_real_groups.

(** It is not negative, and 0 for equal values. *)
Theorem C96_real_facts : forall l, (2 <= length l)%nat ->
  (0 <= sample_variance l)%R /\ (forall a, (forall x, In x l -> x = a) -> sample_variance l = 0%R).
Proof. intros l L. split; [now apply variance_nonneg|]. intros a. now apply variance_const. Qed.
Print Assumptions C96_real_facts.

(** A computation with integers in place of floating point numbers: the group 1 has 10, 7, 13; 2 an invalid value; 3 one value; 4 none. *)
Example C96_example :
  let rows := [(1, 10); (2, 5); (1, 7); (0, 99); (3, 8); (2, INV64); (2, 7); (1, 13)] in
  run_var (AccumVar ok64 INV64 0 0 (fun x => x) (fun x => x) Z.add Z.sub Z.mul Z.quot in_out) 1 5 rows [-7; 1; 2; 3; 4] [0; 0; 0; 0; 0] [5; 5; 5; 5; 5]
    = Some [-7; 9; INV64; INV64; INV64] /\
  run_var (AccumNanVar ok64 INV64 0 0 (fun x => x) (fun x => x) Z.add Z.sub Z.mul Z.quot in_tmp) 1 5 rows [-7; 1; 2; 3; 4] [6; 6; 6; 6; 6] [5; 5; 5; 5; 5]
    = Some [-7; 9; 2; INV64; INV64] /\
  run_var (AccumStd ok64 INV64 0 0 (fun x => x) (fun x => x) Z.add Z.sub Z.mul Z.quot Z.sqrt in_tmp) 1 2 rows [-7; 1; 2; 3; 4] [6; 6; 6; 6; 6] [5; 5; 5; 5; 5]
    = Some [-7; 3; 2; 3; 4].
Proof. vm_compute. repeat split; reflexivity. Qed.
Example C96_real_example : sample_variance [10; 7; 13]%R = 9%R.
Proof. unfold sample_variance, Raverage. cbn. lra. Qed.
