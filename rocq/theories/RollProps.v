(** Property C34: rolling windows of one array. *)
From Coq Require Import QArith QArith.Qcanon.
From Verif Require Import Base Num AccumSpec GrpxModel GrpxSpec RollModel RollSpec RollProofs.
Local Open Scope Z_scope.

(** ** Sums and means, in an exact arithmetic *)
Theorem C34_sum_partial :
  forall (T U : Type) (conv : T -> U) zero add sub win (l : list T), exact_add zero add -> exact_sub add sub -> 0 <= win ->
  exists res, RollingSum conv zero add sub win l = Some res /\ rolled (rsum_spec conv zero add win l) l res.
Proof. intros T U conv zero add sub win l HA HS W. exact (sum_ok conv zero add sub (fun u _ => u) (fun _ => true) HA HS win l W). Qed.
Print Assumptions C34_sum_partial.

Theorem C34_nansum_partial :
  forall (T U : Type) (conv : T -> U) zero add sub ok win (l : list T), exact_add zero add -> exact_sub add sub -> 0 <= win ->
  exists res, RollingNanSum conv zero add sub ok win l = Some res /\ rolled (rnansum_spec conv zero add ok win l) l res.
Proof. intros T U conv zero add sub ok win l HA HS W. exact (nansum_ok conv zero add sub (fun u _ => u) ok HA HS win l W). Qed.
Print Assumptions C34_nansum_partial.

Theorem C34_mean_partial :
  forall (T U : Type) (conv : T -> U) zero add sub div win (l : list T), exact_add zero add -> exact_sub add sub -> 0 <= win ->
  exists res, RollingMean conv zero add sub div win l = Some res /\ rolled (rmean_spec conv zero add div win l) l res.
Proof. intros T U conv zero add sub div win l HA HS W. exact (mean_ok conv zero add sub div (fun _ => true) HA HS win l W). Qed.
Print Assumptions C34_mean_partial.

(** the sum of the valid items divided by their number *)
Theorem C34_nanmean_partial :
  forall (T U : Type) (conv : T -> U) zero add sub div ok win (l : list T), exact_add zero add -> exact_sub add sub -> 0 <= win ->
  exists res, RollingNanMean conv zero add sub div ok win l = Some res /\
    rolled (fun k u => u = div (total zero conv add (filter ok (window win k l))) (Z.of_nat (length (filter ok (window win k l))))) l res.
Proof. intros T U conv zero add sub div ok win l HA HS W. exact (nanmean_ok conv zero add sub div ok HA HS win l W). Qed.
Print Assumptions C34_nanmean_partial.

(** ** Sums of int64, which wrap: the sum of the window modulo 2^64 *)
Theorem C34_sum64_partial :
  forall (T : Type) (conv : T -> Z) win (l : list T), 0 <= win ->
  exists res, RollingSum conv 0 add64 sub64 win l = Some res /\ rolled (fun k u => u = wrap64 (total 0 conv Z.add (window win k l))) l res.
Proof. intros T conv win l W. exact (sum64_ok conv (fun _ => true) win l W). Qed.
Print Assumptions C34_sum64_partial.

Theorem C34_nansum64_partial :
  forall (T : Type) (conv : T -> Z) ok win (l : list T), 0 <= win ->
  exists res, RollingNanSum conv 0 add64 sub64 ok win l = Some res /\ rolled (fun k u => u = wrap64 (total 0 conv Z.add (filter ok (window win k l)))) l res.
Proof. intros T conv ok win l W. exact (nansum64_ok conv ok win l W). Qed.
Print Assumptions C34_nansum64_partial.

Example C34_sums :
  RollingSum (fun x => x) 0 add64 sub64 2 [5; 7; 1; 4] = Some [5; 12; 8; 5] /\
  RollingNanSum (fun x => x) 0 add64 sub64 ok64 2 [5; INV64; 1; 4] = Some [5; 5; 1; 5] /\
  RollingMean (fun x => x) 0 Z.add Z.sub Z.div 2 [6; 8; 2; 4] = Some [6; 7; 5; 3] /\
  RollingSum (fun x => x) 0 add64 sub64 9 [5; 7] = Some [5; 12].
Proof. vm_compute. auto. Qed.

(** ** Variances, in exact arithmetic *)
(** n - 1 divides while the window fills, n once it slid *)
Theorem C34_var_partial :
  forall (V : Type) (root : option Qc -> V) win l, 1 <= win ->
  exists res, RollingVar root win l = Some res /\ rolled (var_row root win l) l res.
Proof. exact (@var_ok). Qed.
Print Assumptions C34_var_partial.

(** without NaN: n divides everywhere *)
Theorem C34_nanvar_partial :
  forall (V : Type) (root : option Qc -> V) win l, 1 <= win ->
  exists res, RollingNanVar root win (map Some l) = Some res /\ rolled (nanvar_row root win l) l res.
Proof. exact (@nanvar_ok). Qed.
Print Assumptions C34_nanvar_partial.

Example C34_var_rows :
  exists res, RollingVar (fun v => v) 2 (map qc [0; 1; 0]) = Some res /\ length res = 3%nat.
Proof. destruct (C34_var_partial _ (fun v : option Qc => v) 2 (map qc [0; 1; 0]) ltac:(lia)) as (res & E & L & _). exists res. now split. Qed.

(** ** Where the property fails *)
(** a NaN that has left the window still makes the sum NaN *)
Theorem C34_nan_refuted :
  exists l : list fl, RollingSum (fun x => x) (Fin 0) fadd fsub 1 l = Some [NaN; NaN; NaN] /\ window 1 2 l = [Fin 1].
Proof. exists [NaN; Fin 1; Fin 1]. vm_compute. auto. Qed.
Print Assumptions C34_nan_refuted.

(** a negative window makes the second loop start before the arrays *)
Theorem C34_negative_refuted :
  exists l : list Z, RollingSum (fun x => x) 0 add64 sub64 (-1) l = None.
Proof. exists [1; 2]. reflexivity. Qed.
Print Assumptions C34_negative_refuted.

(** rolling_nanmean of integers: [temp == temp] holds of the invalid too, which is added and counted *)
Theorem C34_nanmean_int_refuted :
  exists l, RollingNanMean (fun x => x) 0 Z.add Z.sub Z.div (fun x => x =? x) 2 l = Some [4; (4 + INV64) / 2] /\ filter ok64 (window 2 1 l) = [4].
Proof. exists [4; INV64]. vm_compute. auto. Qed.
Print Assumptions C34_nanmean_int_refuted.

(** two full windows with the same items: different variances *)
Theorem C34_divisor_refuted :
  exists l a b, RollingVar (fun v => v) 2 l = Some [None; Some a; Some b] /\ window 2 1 l = rev (window 2 2 l) /\ a <> b.
Proof.
  exists [qc 0; qc 1; qc 0], (Q2Qc (1 # 2)), (Q2Qc (1 # 4)). split; [| split; [reflexivity | discriminate]].
  vm_compute. repeat f_equal; now apply Qc_is_canon.
Qed.
Print Assumptions C34_divisor_refuted.

(** rolling_nanvar once a number left and a NaN came in: 9 where the window holds 3 and 8 *)
Theorem C34_nanvar_refuted :
  exists l a, RollingNanVar (fun v => v) 3 l = Some a /\ nth_error a 3 = Some (Some (qc 9)) /\ window 3 3 l = [Some (qc 3); Some (qc 8); None] /\
    (squares [qc 3; qc 8] / nqc 2)%Qc = Q2Qc (25 # 4).
Proof.
  exists [Some (qc 1); Some (qc 3); Some (qc 8); None]. eexists. split; [vm_compute; reflexivity |]. split; [| split].
  - cbn [nth_error]. repeat f_equal. now apply Qc_is_canon.
  - reflexivity.
  - now apply Qc_is_canon.
Qed.
Print Assumptions C34_nanvar_refuted.
